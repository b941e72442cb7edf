(** The propagate functions never fail on the pointer vectors RobotState hands them. *)
From Coq Require Import List String Arith Bool ZArith Lia.
From Verif.Model Require Import Base Num Joint Hardware Xml Transmission Simple Wrist Belt Gripper Robot Builtin.
From Verif.Spec Require Import RobotSpec GripperSpec.
From Verif.Proofs Require Import TransmissionProofs RobotProofs LoadProofs GripperLoad.
Import ListNotations.

Section Total.
Context {T : Type} {N : Num T} {G : Trig T}.

Definition same_joints (m m' : mem T) : Prop := forall p, js_joint (m_js m' p) = js_joint (m_js m p).
Lemma same_joints_refl m : same_joints m m. Proof. intros p. reflexivity. Qed.
Lemma same_joints_trans m1 m2 m3 : same_joints m1 m2 -> same_joints m2 m3 -> same_joints m1 m3.
Proof. intros A B p. rewrite B. apply A. Qed.
Lemma same_joints_js m m' p f : same_joints m m' -> (forall j, js_joint (f j) = js_joint j) -> same_joints m (js_upd p f m').
Proof. intros A B q. cbn [js_upd m_js]. unfold upd. destruct (q =? p); rewrite ?B; apply A. Qed.
Lemma same_joints_act m m' p f : same_joints m m' -> same_joints m (act_upd p f m').
Proof. intros A q. apply A. Qed.
Ltac sj := repeat (apply same_joints_js || apply same_joints_act); first [apply same_joints_refl | intros; reflexivity | idtac].

Lemma same_parameters_refl (t : transmission T) : same_parameters t t.
Proof. destruct t; cbn; repeat split. Qed.
Lemma same_parameters_trans (a b c : transmission T) : same_parameters a b -> same_parameters b c -> same_parameters a c.
Proof.
  destruct a, b, c; cbn; try contradiction; intros A B;
    repeat match goal with H : _ /\ _ |- _ => destruct H end; repeat split; congruence.
Qed.
Lemma same_parameters_all (ts : list (transmission T)) : Forall2 same_parameters ts ts.
Proof. induction ts; constructor; auto. apply same_parameters_refl. Qed.
Lemma same_parameters_all_trans (a b c : list (transmission T)) : Forall2 same_parameters a b -> Forall2 same_parameters b c -> Forall2 same_parameters a c.
Proof.
  intros A. revert c. induction A as [|x y a b P1 A IH]; intros c B; inversion B; subst; constructor; auto. eapply same_parameters_trans; eauto.
Qed.

(** numbers of actuators and joints a transmission expects; [sim]: in simulation as well *)
Variable sim : bool.
Definition ready (t : transmission T) : Prop :=
  match t with
  | TSimple t => List.length (st_actuators t) = 1 /\ List.length (st_joints t) = if st_use_sim t then 2 else 1
  | TWrist t => List.length (wt_actuators t) = 2 /\ List.length (wt_joints t) = 2 /\ List.length (wt_ar t) = 2 /\ List.length (wt_jr t) = 2
  | TBelt t => List.length (bt_actuators t) = 1 /\ List.length (bt_joints t) = 1
  | TGripper t => List.length (gr_actuators t) = 1 /\ List.length (gr_joints t) = 1 + List.length (gr_passive t) + (if gr_has_passive t then 2 else 1) /\
      (sim = true -> gr_has_passive t = true /\ nltb nzero (gr_sim_red t) = true)
  end.

Variables (dbg : bool) (P : parsers T).
Notation K := (builtin dbg P).

Definition fits (t : transmission T) (i o : list nat) : Prop :=
  List.length i = List.length (tr_actuators K t) /\ List.length o = List.length (tr_joints K t).

(** what one propagate call promises *)
Definition fine (t : transmission T) (m : mem T) (x : res (transmission T * mem T)) : Prop :=
  exists t' m', x = Ok (t', m') /\ ready t' /\ tr_actuators K t' = tr_actuators K t /\ tr_joints K t' = tr_joints K t /\
    tr_name K t' = tr_name K t /\ same_parameters t t' /\ same_joints m m'.

Lemma vget_ok {A} (l : list A) k : k < List.length l -> exists x, vget l k = Ok x.
Proof. intros H. unfold vget. destruct (nth_error l k) eqn:E; [eauto|]. apply nth_error_None in E. lia. Qed.
Lemma len1 {A} (l : list A) : List.length l = 1 -> exists a, l = [a].
Proof. destruct l as [|a [|]]; try discriminate. eauto. Qed.
Lemma len2 {A} (l : list A) : List.length l = 2 -> exists a b, l = [a; b].
Proof. destruct l as [|a [|b [|]]]; try discriminate. eauto. Qed.
Lemma casserts b : b = true -> cassert dbg b = Ok tt.
Proof. intros ->. unfold cassert. rewrite andb_false_r. reflexivity. Qed.

Lemma passive_total pos vel eff js : forall n i (m : mem T), i + n <= List.length js ->
  exists m', passive_loop n i pos vel eff js m = Ok m' /\ same_joints m m'.
Proof.
  induction n as [|n IH]; intros i m H; cbn [passive_loop]; [eexists; split; [reflexivity|apply same_joints_refl]|].
  destruct (vget_ok js i) as [q ->]; [lia|]. cbn [bind].
  match goal with |- exists m', passive_loop n (S i) pos vel eff js ?m1 = _ /\ _ => destruct (IH (S i) m1) as [m' [-> S']]; [lia|] end.
  eexists; split; [reflexivity|]. eapply same_joints_trans; [|exact S']. sj.
Qed.
Lemma same_joints_blank m m' q : same_joints m m' -> same_joints m (blank_joint q m').
Proof. intros A. unfold blank_joint. sj. exact A. Qed.

Ltac fin := split; [first [assumption | cbn [ready] in *; cbn; tauto]|];
  split; [reflexivity|]; split; [reflexivity|]; split; [reflexivity|]; split; [cbn; repeat split|].

Lemma position_fine t i o m : ready t -> fits t i o -> fine t m (tr_position K t i o m).
Proof.
  intros RD. assert (RD0 := RD). revert RD.
  destruct t as [t|t|t|t]; cbn [ready fits tr_actuators tr_joints tr_position builtin]; unfold fits; cbn [tr_actuators tr_joints builtin].
  - intros [A B] [I O]. rewrite A in I. rewrite B in O. destruct (len1 _ I) as [a ->]. unfold simple_propagatePosition, simple_sizes, fine.
    destruct (st_use_sim t) eqn:U; [destruct (len2 _ O) as (j & k & ->)|destruct (len1 _ O) as (j & ->)];
      rewrite !casserts by reflexivity; cbn [bind vget nth_error keep]; eexists _, _; (split; [reflexivity|]); fin; sj.
  - intros (A & B & C & D) [I O]. rewrite A in I. rewrite B in O. destruct (len2 _ I) as (a & b & ->). destruct (len2 _ O) as (j & k & ->).
    destruct (len2 _ C) as (r0 & r1 & E1). destruct (len2 _ D) as (s0 & s1 & E2).
    unfold wrist_propagatePosition, wrist_sizes, fine. rewrite !casserts by reflexivity. cbn [bind vget nth_error keep]. rewrite E1, E2. cbn [nth_error].
    eexists _, _; (split; [reflexivity|]). fin; sj.
  - intros (A & B) [I O]. rewrite A in I. rewrite B in O. destruct (len1 _ I) as (a & ->). destruct (len1 _ O) as (j & ->).
    unfold belt_propagatePosition, belt_sizes, fine. rewrite !casserts by reflexivity. cbn [bind vget nth_error wrap].
    destruct (belt_jnt1 _ _ _ _ _ _) as [[? ?] ?]. destruct (belt_defl _ _ _ _ _ _ _) as [[? ?] ?]. destruct (belt_combine _ _ _ _ _ _ _) as [? ?].
    cbn [bind]. eexists _, _; (split; [reflexivity|]). fin; sj.
  - intros (A & B & SIM) [I O]. rewrite A in I. rewrite B in O. destruct (len1 _ I) as (a & ->).
    unfold gripper_propagatePosition, gripper_size_fwd, fine. rewrite (casserts (List.length [a] =? 1)) by reflexivity.
    rewrite casserts by (rewrite O; apply Nat.eqb_refl). cbn [bind vget nth_error keep].
    destruct (vget_ok o 0) as [j0 ->]; [lia|]. cbn [bind].
    match goal with |- context [passive_loop ?n 1 ?x ?y ?z o ?m1] => destruct (passive_total x y z o n 1 m1) as [m2 [-> S2]]; [destruct (gr_has_passive t); lia|] end.
    cbn [bind]. destruct (vget_ok o (List.length (gr_passive t) + 1)) as [k ->]; [destruct (gr_has_passive t); lia|]. cbn [bind].
    assert (S3 : same_joints m (blank_joint k m2)). { apply same_joints_blank. eapply same_joints_trans; [|exact S2]. sj. }
    destruct (gr_has_passive t) eqn:HP.
    + destruct (vget_ok o (List.length (gr_passive t) + 2)) as [k2 ->]; [lia|]. cbn [bind keep]. eexists _, _; (split; [reflexivity|]).
      fin. apply same_joints_blank. exact S3.
    + cbn [keep bind]. eexists _, _; (split; [reflexivity|]). fin. exact S3.
Qed.

Lemma effort_fine t i o m : ready t -> fits t i o -> fine t m (tr_effort K t o i m).
Proof.
  intros RD. assert (RD0 := RD). revert RD.
  destruct t as [t|t|t|t]; cbn [ready tr_effort builtin]; unfold fits; cbn [tr_actuators tr_joints builtin].
  - intros [A B] [I O]. rewrite A in I. rewrite B in O. destruct (len1 _ I) as [a ->]. unfold simple_propagateEffort, simple_sizes, fine.
    destruct (st_use_sim t) eqn:U; [destruct (len2 _ O) as (j & k & ->)|destruct (len1 _ O) as (j & ->)];
      rewrite !casserts by reflexivity; cbn [bind vget nth_error keep]; eexists _, _; (split; [reflexivity|]); fin; sj.
  - intros (A & B & C & D) [I O]. rewrite A in I. rewrite B in O. destruct (len2 _ I) as (a & b & ->). destruct (len2 _ O) as (j & k & ->).
    destruct (len2 _ C) as (r0 & r1 & E1). destruct (len2 _ D) as (s0 & s1 & E2).
    unfold wrist_propagateEffort, wrist_sizes, fine. rewrite !casserts by reflexivity. cbn [bind vget nth_error keep]. rewrite E1, E2. cbn [nth_error].
    eexists _, _; (split; [reflexivity|]). fin; sj.
  - intros (A & B) [I O]. rewrite A in I. rewrite B in O. destruct (len1 _ I) as (a & ->). destruct (len1 _ O) as (j & ->).
    unfold belt_propagateEffort, belt_sizes, fine. rewrite !casserts by reflexivity. cbn [bind vget nth_error wrap].
    eexists _, _; (split; [reflexivity|]). fin; sj.
  - intros (A & B & SIM) [I O]. rewrite A in I. rewrite B in O. destruct (len1 _ I) as (a & ->).
    unfold gripper_propagateEffort, gripper_size_fwd, fine. rewrite (casserts (List.length [a] =? 1)) by reflexivity.
    rewrite casserts by (rewrite O; apply Nat.eqb_refl). cbn [bind].
    destruct (vget_ok o 0) as [j0 ->]; [lia|]. cbn [bind vget nth_error keep].
    destruct (inverseGapStates t _) as [[[? ?] ?] ?]. cbn [bind].
    eexists _, _; (split; [reflexivity|]). fin; sj.
Qed.

(** the calls of a simulator *)
Lemma positionBack_fine e t i o m : sim = true -> ready t -> fits t i o -> (forall q, In q o -> js_joint (m_js m q) <> None) ->
  fine t m (tr_positionBackwards K e t o i m).
Proof.
  intros SI RD. assert (RD0 := RD). revert RD.
  destruct t as [t|t|t|t]; cbn [ready tr_positionBackwards builtin]; unfold fits; cbn [tr_actuators tr_joints builtin].
  - intros [A B] [I O] JN. rewrite A in I. rewrite B in O. destruct (len1 _ I) as [a ->]. unfold simple_propagatePositionBackwards, simple_sizes, fine.
    destruct (sim_clock e (st_ts_init t) (st_start t)) as [[ini start] stamp].
    destruct (st_use_sim t) eqn:U; [destruct (len2 _ O) as (j & k & ->)|destruct (len1 _ O) as (j & ->)];
      rewrite !casserts by reflexivity; cbn [bind vget nth_error wrap];
      (match goal with |- context [simcal_mem dbg ?c ?pj ?pa ?mm] => destruct (simcal_total dbg c pj pa mm) as (c' & a' & -> & _); [apply JN; left; reflexivity|] end);
      cbn [bind]; eexists _, _; (split; [reflexivity|]); fin; sj.
  - intros (A & B & C & D) [I O] JN. rewrite A in I. rewrite B in O. destruct (len2 _ I) as (a & b & ->). destruct (len2 _ O) as (j & k & ->).
    destruct (len2 _ C) as (r0 & r1 & E1). destruct (len2 _ D) as (s0 & s1 & E2).
    unfold wrist_propagatePositionBackwards, wrist_sizes, fine. rewrite !casserts by reflexivity. cbn [bind vget nth_error wrap]. rewrite E1, E2. cbn [vget nth_error bind wrap].
    destruct (sim_clock e (wt_ts_init t) (wt_start t)) as [[ini start] stamp].
    match goal with |- context [simcal_mem dbg ?c j b ?mm] => destruct (simcal_total dbg c j b mm) as (c' & a' & -> & _); [apply JN; left; reflexivity|] end. cbn [bind].
    match goal with |- context [simcal_mem dbg ?c k a ?mm] => destruct (simcal_total dbg c k a mm) as (c2 & a2 & -> & _); [apply JN; right; left; reflexivity|] end. cbn [bind].
    eexists _, _; (split; [reflexivity|]). fin; sj.
  - intros (A & B) [I O] JN. rewrite A in I. rewrite B in O. destruct (len1 _ I) as (a & ->). destruct (len1 _ O) as (j & ->).
    unfold belt_propagatePositionBackwards, belt_sizes, fine. rewrite !casserts by reflexivity. cbn [bind vget nth_error wrap].
    match goal with |- context [if belt_rigid t then ?x else ?y] => destruct (if belt_rigid t then x else y) as [[? ?] ?] end.
    destruct (sim_clock _ _ _) as [[? ?] ?].
    match goal with |- context [simcal_mem dbg ?c j a ?mm] => destruct (simcal_total dbg c j a mm) as (c' & a' & -> & _); [apply JN; left; reflexivity|] end. cbn [bind].
    eexists _, _; (split; [reflexivity|]). fin; sj.
  - intros (A & B & SIM) [I O] JN. rewrite A in I. rewrite B in O. destruct (len1 _ I) as (a & ->). destruct (SIM SI) as [HP _]. rewrite HP in O.
    unfold gripper_propagatePositionBackwards, gripper_size_posback, fine. rewrite (casserts (List.length [a] =? 1)) by reflexivity. rewrite HP.
    rewrite casserts by (rewrite O; apply Nat.eqb_refl). cbn [bind]. destruct o as [|j0 o]; [discriminate|]. cbn [vget nth_error bind].
    destruct (inverseGapStates t _) as [[[? ?] ?] ?]. destruct (sim_clock _ _ _) as [[? ?] ?]. cbn [wrap].
    match goal with |- context [simcal_mem dbg ?c j0 a ?mm] => destruct (simcal_total dbg c j0 a mm) as (c' & a' & -> & _); [apply JN; left; reflexivity|] end. cbn [bind].
    eexists _, _; (split; [reflexivity|]). fin; sj.
Qed.

Lemma effortBack_fine t i o m : sim = true -> ready t -> fits t i o -> fine t m (tr_effortBackwards K t i o m).
Proof.
  intros SI RD. assert (RD0 := RD). revert RD.
  destruct t as [t|t|t|t]; cbn [ready tr_effortBackwards builtin]; unfold fits; cbn [tr_actuators tr_joints builtin].
  - intros [A B] [I O]. rewrite A in I. rewrite B in O. destruct (len1 _ I) as [a ->]. unfold simple_propagateEffortBackwards, simple_sizes, fine.
    destruct (st_use_sim t) eqn:U; [destruct (len2 _ O) as (j & k & ->)|destruct (len1 _ O) as (j & ->)];
      rewrite !casserts by reflexivity; cbn [bind vget nth_error keep]; eexists _, _; (split; [reflexivity|]); fin; sj.
  - intros (A & B & C & D) [I O]. rewrite A in I. rewrite B in O. destruct (len2 _ I) as (a & b & ->). destruct (len2 _ O) as (j & k & ->).
    destruct (len2 _ C) as (r0 & r1 & E1). destruct (len2 _ D) as (s0 & s1 & E2).
    unfold wrist_propagateEffortBackwards, wrist_sizes, fine. rewrite !casserts by reflexivity. cbn [bind vget nth_error keep]. rewrite E1, E2. cbn [nth_error].
    eexists _, _; (split; [reflexivity|]). fin; sj.
  - intros (A & B) [I O]. rewrite A in I. rewrite B in O. destruct (len1 _ I) as (a & ->). destruct (len1 _ O) as (j & ->).
    unfold belt_propagateEffortBackwards, belt_sizes, fine. rewrite !casserts by reflexivity. cbn [bind vget nth_error wrap].
    eexists _, _; (split; [reflexivity|]). fin; sj.
  - intros (A & B & SIM) [I O]. rewrite A in I. rewrite B in O. destruct (len1 _ I) as (a & ->). destruct (SIM SI) as [HP PO]. rewrite HP in O.
    unfold gripper_propagateEffortBackwards, gripper_size_effback, fine. rewrite (casserts (List.length [a] =? 1)) by reflexivity.
    rewrite casserts by (rewrite O; apply Nat.eqb_refl). cbn [bind]. rewrite casserts by exact PO. cbn [bind vget nth_error keep].
    destruct (vget_ok o (List.length (gr_passive t) + 1)) as [j0 E0]; [lia|]. rewrite E0. cbn [bind].
    eexists _, _; (split; [reflexivity|]). fin; sj.
Qed.

(** the loop over all transmissions *)
Definition all_fit (ts : list (transmission T)) (ins outs : list (list nat)) : Prop :=
  Forall ready ts /\ Forall2 (fun t i => List.length i = List.length (tr_actuators K t)) ts ins /\
  Forall2 (fun t o => List.length o = List.length (tr_joints K t)) ts outs.

Lemma over_fine f : (forall t i o m, ready t -> fits t i o -> (forall q, In q o -> js_joint (m_js m q) <> None) -> fine t m (f t i o m)) ->
  forall ts ins outs m, all_fit ts ins outs -> (forall o q, In o outs -> In q o -> js_joint (m_js m q) <> None) ->
  exists ts' m', over_transmissions f ts ins outs m = Ok (ts', m') /\ all_fit ts' ins outs /\ map (tr_name K) ts' = map (tr_name K) ts /\
    Forall2 same_parameters ts ts' /\ same_joints m m'.
Proof.
  intros HF. induction ts as [|t ts IH]; intros ins outs m (R1 & I1 & O1) JN; inversion I1; inversion O1; subst; cbn [over_transmissions].
  - eexists _, _. split; [reflexivity|]. split; [split; auto|]. split; auto. split; [constructor|]. apply same_joints_refl.
  - inversion R1; subst. destruct (HF t y y0 m) as (t' & m1 & -> & Rt & At & Jt & Nt & PA & S1); auto; [split; auto|intros q; apply JN; left; reflexivity|]. cbn [bind].
    destruct (IH l' l'0 m1) as (ts' & m2 & -> & (R2 & I2 & O2) & N2 & P2 & S2); [split; auto|intros o q IO IQ; rewrite S1; eapply JN; [right|]; eauto|]. cbn [bind].
    eexists _, _. split; [reflexivity|]. split; [|split; [|split]].
    + split; [constructor; auto|]. split; constructor; auto; congruence.
    + cbn [map]. f_equal; auto.
    + constructor; auto.
    + eapply same_joints_trans; eauto.
Qed.

Lemma over_joints_fine f ids : (forall j, js_joint j <> None -> exists j', f j = Ok j' /\ js_joint j' = js_joint j) ->
  forall m, (forall p, In p ids -> js_joint (m_js m p) <> None) -> exists m', over_joints f ids m = Ok m' /\ same_joints m m' /\ m_act m' = m_act m.
Proof.
  intros HF. induction ids as [|k ids IH]; intros m H; cbn [over_joints]; [exists m; repeat split; apply same_joints_refl|].
  destruct (HF (m_js m k)) as (j' & -> & J); [apply H; left; auto|]. cbn [bind].
  assert (S1 : same_joints m (js_upd k (fun _ => j') m)).
  { intros p. cbn [js_upd m_js]. unfold upd. destruct (Nat.eqb_spec p k) as [->|]; auto. }
  destruct (IH (js_upd k (fun _ => j') m)) as (m' & -> & S2 & A2); [intros p I; rewrite S1; apply H; right; auto|].
  exists m'. split; auto. split; [eapply same_joints_trans; eauto|auto].
Qed.

Lemma enforce_fine (j : jointstate T) : js_joint j <> None -> exists j', enforceLimits j = Ok j' /\ js_joint j' = js_joint j.
Proof.
  intros H. unfold enforceLimits, getLimits. destruct (js_joint j) as [u|] eqn:J; [|congruence].
  destruct (uj_safety u); [destruct (uj_limits u)|]; cbn [bind].
  - match goal with |- context [if ?x then _ else _] => destruct x end; cbn [bind]; eexists; (split; [reflexivity|exact J]).
  - eexists; (split; [reflexivity|exact J]).
  - eexists; (split; [reflexivity|exact J]).
Qed.
Lemma stats_fine (j : jointstate T) : js_joint j <> None -> exists j', update_statistics j = Ok j' /\ js_joint j' = js_joint j.
Proof.
  intros H. unfold update_statistics, stats_update. destruct (js_joint j) as [u|] eqn:J; [|congruence].
  destruct (js_initialized _); cbn [bind]; eexists; (split; [reflexivity|exact J]).
Qed.
Lemma zero_fine (j : jointstate T) : js_joint j <> None -> exists j', Ok (set_commanded_effort nzero j) = Ok j' /\ js_joint j' = js_joint j.
Proof. eauto. Qed.

(** an accepted usable description gives a ready transmission *)
Lemma simple_ready R e h g1 g2 b c t h' : simple_initXml P R e h (new_simple g1 g2 b c) = Ok (Some t, h') ->
  List.length (ChildElements e "simulated_actuated_joint") <= 1 -> ready (TSimple t).
Proof.
  unfold simple_initXml. cbv zeta. intros H LE.
  destruct (match FirstChildElement e "joint" with Some jel => Attribute jel "name" | None => None end) as [jn|]; [|discriminate].
  destruct (rv_joint R jn); [|discriminate]. destruct (FirstChildElement e "actuator") as [ael|]; [|discriminate].
  destruct (Attribute ael "name") as [an|]; [|discriminate]. destruct (rv_actuator R an); [|discriminate].
  destruct (match FirstChildElement ael "mechanicalReduction" with Some _ => _ | None => _ end); cbn [bind] in H; try discriminate.
  injection H as H _. destruct (ChildElements e "simulated_actuated_joint") as [|j [|]]; cbn [List.length] in LE; try lia; cbn [simple_sim_loop] in H.
  - injection H as <-. cbn. auto.
  - destruct (Attribute j "name") as [n0|]; [|injection H as <-; cbn; auto].
    match type of H with (if ?x then _ else _) = _ => destruct x end; [|injection H as <-; cbn; auto].
    destruct (Attribute j "simulated_reduction") as [r|]; [|discriminate]. destruct (p_lexical P r); [|discriminate]. injection H as <-. cbn. auto.
Qed.
Lemma wrist_actuator_len (find : string -> option nat) e tag h (t t' : wrist T) h' : wrist_actuator P find e tag h t = (Some t', h') ->
  List.length (wt_actuators t') = S (List.length (wt_actuators t)) /\ List.length (wt_ar t') = S (List.length (wt_ar t)) /\ wt_joints t' = wt_joints t /\ wt_jr t' = wt_jr t.
Proof.
  unfold wrist_actuator. destruct (FirstChildElement e tag) as [ael|]; [|discriminate]. destruct (Attribute ael "name"); [|discriminate].
  destruct (find s); [|discriminate]. destruct (Attribute ael "mechanicalReduction"); [|discriminate]. intros [= <- <-]. cbn. rewrite !app_length. cbn. repeat split; lia.
Qed.
Lemma wrist_joint_len known e tag (t t' : wrist T) j : wrist_joint P known e tag t = Ok (Some (t', j)) ->
  List.length (wt_joints t') = S (List.length (wt_joints t)) /\ List.length (wt_jr t') = S (List.length (wt_jr t)) /\ wt_actuators t' = wt_actuators t /\ wt_ar t' = wt_ar t.
Proof.
  unfold wrist_joint. destruct (deref _) as [x| | |]; cbn [bind]; try discriminate. destruct (Attribute x "name"); [|discriminate]. destruct (known s); [|discriminate].
  destruct (Attribute x "mechanicalReduction"); [|discriminate]. intros [= <- <-]. cbn. rewrite !app_length. cbn. repeat split; lia.
Qed.
Lemma wrist_ready R e h b c0 c1 t h' : wrist_initXml P R e h (new_wrist b c0 c1) = Ok (Some t, h') -> ready (TWrist t).
Proof.
  unfold wrist_initXml. cbv zeta. intros H.
  destruct (wrist_actuator P _ e "rightActuator" h _) as [[t1|] h1] eqn:E1; [|discriminate].
  destruct (wrist_actuator P _ e "leftActuator" h1 t1) as [[t2|] h2] eqn:E2; [|discriminate].
  destruct (wrist_joint P _ e "flexJoint" t2) as [[[t3 j3]|]| | |] eqn:E3; cbn [bind] in H; try discriminate.
  destruct (wrist_offset P (Attribute j3 "offset")) as [o0|]; [|discriminate].
  destruct (wrist_joint P _ e "rollJoint" (set_wt_off0 o0 t3)) as [[[t4 j4]|]| | |] eqn:E4; cbn [bind] in H; try discriminate.
  destruct (wrist_offset P (Attribute j4 "offset")) as [o1|]; [|discriminate]. injection H as <- <-.
  apply wrist_actuator_len in E1, E2. apply wrist_joint_len in E3, E4. cbn in E1, E4.
  destruct E1 as (A1 & A2 & A3 & A4), E2 as (B1 & B2 & B3 & B4), E3 as (C1 & C2 & C3 & C4), E4 as (D1 & D2 & D3 & D4).
  cbn [ready wt_actuators wt_joints wt_ar wt_jr set_wt_off1]. rewrite D1, D2, D3, D4, C1, C2, C3, C4, B1, B2, B3, B4, A1, A2, A3, A4. auto.
Qed.
Lemma belt_ready R e h t0 t h' : bt_actuators t0 = [] -> bt_joints t0 = [] -> belt_initXml P R e h t0 = Ok (Some t, h') -> ready (TBelt t).
Proof.
  unfold belt_initXml. cbv zeta. intros N1 N2 H.
  destruct (match FirstChildElement e "joint" with Some jel => Attribute jel "name" | None => None end) as [jn|]; [|discriminate].
  destruct (rv_joint R jn); [|discriminate].
  destruct (match FirstChildElement e "actuator" with Some ael => Attribute ael "name" | None => None end) as [an|]; [|discriminate].
  destruct (rv_actuator R an); [|discriminate].
  destruct (belt_params P e _) as [o| | |] eqn:B; cbn [bind] in H; try discriminate. injection H as -> <-.
  apply belt_params_names in B. cbn in B. destruct B as [B1 B2]. cbn. rewrite B1, B2, N1, N2. auto.
Qed.
Lemma gripper_reduction R e h g b c t h' : gripper_initXml P R e h (new_gripper g b c) = Ok (Some t, h') ->
  forall j, ChildElements e "simulated_actuated_joint" = [j] -> exists r x, Attribute j "simulated_reduction" = Some r /\ p_lexical P r = Some x /\ gr_sim_red t = x.
Proof.
  intros H j J. unfold gripper_initXml in H. destruct (gripper_initXml1 P e _) as [t1|] eqn:E; [|discriminate].
  assert (t1 = t). { destruct (enable_all R (gr_actuators t1) h). match type of H with (if ?x then _ else _) = _ => destruct x end; [|discriminate]. congruence. }
  subst t1. clear H. unfold gripper_initXml1 in E.
  destruct (match FirstChildElement e "actuator" with Some ael => Attribute ael "name" | None => None end) as [an|]; [|discriminate]. cbv zeta in E.
  match type of E with context [each (gripper_gap P) ?l ?s] => destruct (each (gripper_gap P) l s) as [t2|]; [|discriminate] end.
  destruct (each gripper_passive _ t2) as [t3|]; [|discriminate]. rewrite J in E. cbn [each] in E. unfold gripper_simulated in E.
  destruct (Attribute j "name") as [n|]; [|discriminate]. destruct (Attribute j "simulated_reduction") as [r|]; [|discriminate].
  destruct (p_lexical P r) as [x|] eqn:PX; [|discriminate]. exists r, x. split; [reflexivity|]. split; [exact PX|].
  destruct (Attribute j "passive_actuated_joint"); injection E as <-; reflexivity.
Qed.
Lemma gripper_ready R e h g b c t h' : gripper_initXml P R e h (new_gripper g b c) = Ok (Some t, h') ->
  List.length (ChildElements e "gap_joint") = 1 -> List.length (ChildElements e "simulated_actuated_joint") = 1 ->
  (sim = true -> forall j, In j (ChildElements e "simulated_actuated_joint") -> Attribute j "passive_actuated_joint" <> None /\
    forall r x, Attribute j "simulated_reduction" = Some r -> p_lexical P r = Some x -> nltb nzero x = true) -> ready (TGripper t).
Proof.
  intros H G1 S1 SM. assert (A1 : List.length (gr_actuators t) = 1).
  { unfold gripper_initXml in H. destruct (gripper_initXml1 P e _) as [t1|] eqn:E; [|discriminate].
    assert (t1 = t). { destruct (enable_all R (gr_actuators t1) h). match type of H with (if ?x then _ else _) = _ => destruct x end; [|discriminate]. congruence. }
    subst t1. clear H. unfold gripper_initXml1 in E.
    destruct (match FirstChildElement e "actuator" with Some ael => Attribute ael "name" | None => None end) as [an|]; [|discriminate]. cbv zeta in E.
    match type of E with context [each (gripper_gap P) ?l ?s] => set (s0 := s) in E; assert (B0 : List.length (gr_actuators s0) = 1) by reflexivity; destruct (each (gripper_gap P) l s0) as [t2|] eqn:E2; [|discriminate] end. destruct (each gripper_passive _ t2) as [t3|] eqn:E3; [|discriminate].
    assert (ST1 : forall (d : list xml) j s s', List.length (gr_actuators s) = 1 -> gripper_gap P j s = Some s' -> List.length (gr_actuators s') = 1).
    { intros d j s s' I F. unfold gripper_gap in F.
      repeat (match type of F with (match ?x with Some _ => _ | None => _ end = _) => destruct x; [|discriminate] end). injection F as <-. exact I. }
    assert (ST2 : forall (d : list xml) j (s s' : gripper T), List.length (gr_actuators s) = 1 -> gripper_passive j s = Some s' -> List.length (gr_actuators s') = 1).
    { intros d j s s' I F. unfold gripper_passive in F. destruct (Attribute j "name"); [|discriminate]. injection F as <-. exact I. }
    assert (ST3 : forall (d : list xml) j s s', List.length (gr_actuators s) = 1 -> gripper_simulated P j s = Some s' -> List.length (gr_actuators s') = 1).
    { intros d j s s' I F. unfold gripper_simulated in F. destruct (Attribute j "name"); [|discriminate]. destruct (Attribute j "simulated_reduction") as [r|]; [|discriminate].
      destruct (p_lexical P r); [|discriminate]. destruct (Attribute j "passive_actuated_joint"); injection F as <-; exact I. }
    assert (X2 := each_inv (gripper_gap P) (fun _ s => List.length (gr_actuators s) = 1) _ _ _ ST1 [] B0 E2).
    assert (X3 := each_inv gripper_passive (fun _ s => List.length (gr_actuators s) = 1) _ _ _ ST2 [] X2 E3).
    exact (each_inv (gripper_simulated P) (fun _ s => List.length (gr_actuators s) = 1) _ _ _ ST3 [] X3 E). }
  destruct (gripper_count P R e h g b c t h' H) as (B1 & B2 & B3). assert (B4 := gripper_reduction R e h g b c t h' H). cbn [ready]. split; auto. rewrite B2, G1, B1. unfold declared_simulated.
  destruct (ChildElements e "simulated_actuated_joint") as [|j [|]]; cbn [List.length] in S1; try discriminate. rewrite B3. cbn [existsb filter].
  split; [destruct (names_passive_actuated j); cbn; lia|]. intros SI. destruct (SM SI j) as [PA PO]; [left; reflexivity|]. split.
  - unfold names_passive_actuated. destruct (Attribute j "passive_actuated_joint"); [reflexivity|congruence].
  - destruct (B4 j eq_refl) as (r & x & Q1 & Q2 & ->). eapply PO; eauto.
Qed.

Lemma accepted_ready L R e t : (forall c t0, ld_create L c = Some t0 -> is_new t0) -> usable L e -> (sim = true -> simulatable P L e) -> accepted K L R e t -> ready t.
Proof.
  intros HN HU HS (ty & c & t0 & h & h' & D & _ & C & CR & I). specialize (HU _ _ _ D C CR). specialize (HN _ _ CR).
  destruct t0 as [t0|t0|t0|t0]; cbn [tr_initXml builtin is_new] in *.
  - destruct HN as (g1 & g2 & b & cc & ->). destruct (simple_initXml P R e h _) as [[[t1|] h1]| | |] eqn:E; cbn [wrapi bind] in I; try discriminate. injection I as <- <-. eapply simple_ready; eauto.
  - destruct HN as (b & c0 & c1 & ->). destruct (wrist_initXml P R e h _) as [[[t1|] h1]| | |] eqn:E; cbn [wrapi bind] in I; try discriminate. injection I as <- <-. eapply wrist_ready; eauto.
  - destruct HN as [N1 N2]. destruct (belt_initXml P R e h _) as [[[t1|] h1]| | |] eqn:E; cbn [wrapi bind] in I; try discriminate. injection I as <- <-. eapply belt_ready; eauto.
  - destruct HN as (g & b & cc & ->). destruct HU. destruct (gripper_initXml P R e h _) as [[[t1|] h1]| | |] eqn:E; cbn [wrapi bind] in I; try discriminate. injection I as <- <-. eapply gripper_ready; eauto.
    intros SI j IJ. destruct (HS SI) as [_ HS']. eapply HS'; eauto.
Qed.
End Total.
