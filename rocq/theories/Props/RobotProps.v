(** C38 (halted), C40 (wiring), C41 (loading a robot description), C66 (the control cycle never crashes). *)
From Coq Require Import List String Arith Bool ZArith Lia Reals.
From Verif.Model Require Import Base Num Joint Hardware Xml Transmission Simple Wrist Belt Gripper Robot Builtin.
From Verif.Spec Require Import RobotSpec.
From Verif.Proofs Require Import TransmissionProofs RobotProofs LoadProofs CycleTotal.
Import ListNotations.

(** ** C41 *)
Section C41.
Context {T : Type} {N : Num T} {G : Trig T}.
Variables (dbg : bool) (P : parsers T) (L : loader (transmission T)).
(** the loader creates objects of the four classes of this package *)
Hypothesis HL : forall c t, ld_create L c = Some t -> is_new t.
Notation K := (builtin dbg P).

Lemma HB R : forall c e t, ld_create L c = Some t -> behaves (tr_actuators K) (tr_joints K) R (fun h => tr_initXml K R e h t).
Proof. intros c e t E. apply builtin_behaves. eapply HL; eauto. Qed.

(** initXml succeeds iff there is a hardware interface and the URDF parses.  Then the transmissions appended are exactly
    those of the valid elements, in document order, each as it would have been on its own; nothing else changes. *)
Theorem C41_loaded_in_document_order : forall urdf root h r b r' h',
  robot_initXml K L urdf root h r = Ok (b, r', h') ->
  (b = true <-> rb_hw r <> None /\ urdf root <> None) /\
  (b = false -> r' = r /\ h' = h) /\
  (forall hw joints, rb_hw r = Some hw -> urdf root = Some joints ->
     let R := mkRview joints (getActuator hw) in
     rb_hw r' = Some hw /\ rb_joint r' = joints /\
     exists picks : list (option (transmission T)),
       Forall2 (fun e o => match o with Some t => accepted K L R e t | None => forall t, ~ accepted K L R e t end)
               (ChildElements root "transmission") picks /\
       rb_transmissions r' = rb_transmissions r ++ flat_map (fun o => match o with Some t => [t] | None => [] end) picks).
Proof.
  intros urdf root h r b r' h' E. unfold robot_initXml in E.
  destruct (rb_hw r) as [hw|] eqn:HW.
  2: { injection E as <- <- <-. split; [split; [discriminate|intros [X _]; congruence]|split; [auto|intros; congruence]]. }
  destruct (urdf root) as [joints|] eqn:U.
  2: { injection E as <- <- <-. split; [split; [discriminate|intros [_ X]; congruence]|split; [auto|intros; congruence]]. }
  destruct (load_transmissions K L _ _ h _) as [[ts h1]| | |] eqn:LT; cbn [bind] in E; try discriminate.
  injection E as <- <- <-. split; [split; [split; congruence|auto]|]. split; [discriminate|].
  intros hw' joints' [= <-] [= <-] R. cbn [rb_hw rb_joint rb_transmissions].
  apply (load_spec K L R (HB R)) in LT. destruct LT as (picks & ps & F & -> & _). split; auto. split; auto. exists picks. split; auto.
Qed.

(** getTransmission returns the first loaded transmission of that name, NULL iff there is none; it never reads out of
    bounds. *)
Theorem C41_transmission_lookup : forall (r : robot (transmission T) T) n,
  (exists pre t post, rb_transmissions r = pre ++ t :: post /\ tr_name K t = n /\
     Forall (fun x => tr_name K x <> n) pre /\ getTransmission K r n = Ok (Some t)) \/
  (Forall (fun x => tr_name K x <> n) (rb_transmissions r) /\ getTransmission K r n = Ok None).
Proof.
  intros r n. unfold getTransmission, getTransmissionIndex.
  induction (rb_transmissions r) as [|t ts IH]; cbn [findIndexByName]; [right; split; [constructor|reflexivity]|].
  destruct (String.eqb_spec (tr_name K t) n) as [E|E].
  - left. exists [], t, ts. repeat split; auto.
  - destruct IH as [(pre & u & post & E1 & E2 & E3 & E4)|(E1 & E2)].
    + left. exists (t :: pre), u, post. split; [cbn; now rewrite E1|]. split; auto. split; [constructor; auto|].
      destruct (findIndexByName K ts n) as [i|]; [exact E4|discriminate].
    + right. split; [constructor; auto|]. destruct (findIndexByName K ts n) as [i|] eqn:F; [|reflexivity].
      cbn [vget] in *. unfold vget in *. cbn [nth_error]. destruct (nth_error ts i); discriminate.
Qed.

(** Every loaded transmission only names actuators and joints that exist, and its actuators are enabled.  Loading touches
    nothing but the enable commands, and never clears one. *)
Theorem C41_loaded_names_known_and_enabled : forall urdf root h hw r' h',
  robot_initXml K L urdf root h (new_robot (Some hw)) = Ok (true, r', h') ->
  (forall t n, In t (rb_transmissions r') -> In n (tr_actuators K t) -> exists a, getActuator hw n = Some a /\ a_enable (h' a) = true) /\
  (forall t n, In t (rb_transmissions r') -> In n (tr_joints K t) -> rb_joint r' n <> None) /\
  (forall a, same_but_enable (h a) (h' a) /\ (a_enable (h a) = true -> a_enable (h' a) = true)).
Proof.
  intros urdf root h hw r' h' E. unfold robot_initXml in E. cbn [rb_hw new_robot rb_transmissions] in E.
  destruct (urdf root) as [joints|] eqn:U; [|discriminate].
  destruct (load_transmissions K L _ _ h _) as [[ts h1]| | |] eqn:LT; cbn [bind] in E; try discriminate.
  injection E as <- <-. apply (load_spec K L _ (HB _)) in LT. destruct LT as (picks & ps & F & -> & -> & Q). cbn [rb_transmissions rb_joint app].
  split; [|split].
  - intros t n I J. destruct (Q t I) as [Q1 _]. destruct (Q1 n J) as (a & A1 & A2). exists a. split; [exact A1|].
    rewrite enable_list_at. apply orb_true_iff. right. apply existsb_exists. exists a. split; auto. apply Nat.eqb_refl.
  - intros t n I J. destruct (Q t I) as [_ Q2]. apply Q2; auto.
  - intros a. split; [apply enable_list_same|]. intros X. rewrite enable_list_at, X. reflexivity.
Qed.

(** An element with an empty <type/> child is undefined behaviour (a std::string assigned from NULL), whatever comes after. *)
Theorem C41_empty_type_undefined : forall urdf root h r hw joints pre e post,
  rb_hw r = Some hw -> urdf root = Some joints -> ChildElements root "transmission" = pre ++ e :: post -> empty_type e ->
  (exists x, load_transmissions K L (mkRview joints (getActuator hw)) pre h (rb_transmissions r) = Ok x) ->
  robot_initXml K L urdf root h r = UB.
Proof.
  intros urdf root h r hw joints pre e post HW U C E X. unfold robot_initXml. rewrite HW, U, C, (load_undefined K L _ pre e post); auto.
Qed.
End C41.

(** With the classes exported by transmission_plugins.xml only the four namespaced names work, each
    giving an object of the class it names: the exported class
    pr2_mechanism_model/GripperTransmission does not exist, and the fallback for names without a namespace is never
    reached because those names do not start with pr2. *)
Theorem C41_only_namespaced_types : forall {T} {N : Num T} {G : Trig T} dbg (P : parsers T) gr si wr be R e t,
  accepted (builtin dbg P) (pr2_loader gr si wr be) R e t ->
  exists ty, declared_type e ty /\
    ty = match t with
         | TGripper _ => "pr2_mechanism_model/PR2GripperTransmission"
         | TSimple _ => "pr2_mechanism_model/SimpleTransmission"
         | TWrist _ => "pr2_mechanism_model/WristTransmission"
         | TBelt _ => "pr2_mechanism_model/PR2BeltCompensatorTransmission" end%string.
Proof.
  intros T N G dbg P gr si wr be R e t (ty & c & t0 & h & h' & D & (rest & PR) & C & CR & I). exists ty. split; auto.
  assert (EQ : c = ty). { destruct C as [A|pre c post A E1 E2 E3|A X]; auto. exfalso.
    assert (IN : In c pr2_classes) by (cbn [ld_declared pr2_loader] in E1; rewrite E1; apply in_or_app; right; left; auto).
    cbn [ld_name pr2_loader] in E2. subst ty.
    destruct IN as [<-|[<-|[<-|[<-|[<-|[]]]]]]; vm_compute in E2; discriminate. }
  subst c. unfold pr2_loader in CR. cbn [ld_create] in CR.
  assert (KIND : match t0, t with TSimple _, TSimple _ | TWrist _, TWrist _ | TBelt _, TBelt _ | TGripper _, TGripper _ => True | _, _ => False end).
  { destruct t0 as [t0|t0|t0|t0]; cbn [tr_initXml builtin] in I.
    - destruct (simple_initXml P R e h t0) as [[[t1|] h1]| | |]; cbn [wrapi bind] in I; try discriminate; injection I as <- <-; exact Logic.I.
    - destruct (wrist_initXml P R e h t0) as [[[t1|] h1]| | |]; cbn [wrapi bind] in I; try discriminate; injection I as <- <-; exact Logic.I.
    - destruct (belt_initXml P R e h t0) as [[[t1|] h1]| | |]; cbn [wrapi bind] in I; try discriminate; injection I as <- <-; exact Logic.I.
    - destruct (gripper_initXml P R e h t0) as [[[t1|] h1]| | |]; cbn [wrapi bind] in I; try discriminate; injection I as <- <-; exact Logic.I. }
  repeat (match type of CR with (if String.eqb ty ?s then _ else _) = _ => destruct (String.eqb_spec ty s) as [->|] end;
    [injection CR as <-; destruct t; try contradiction; reflexivity|]). discriminate.
Qed.

(** ** C40 *)
Section C40.
Context {Tr T : Type} {N : Num T}.
Variables (K : tclass Tr T) (dbg : bool) (g : T).

(** The k-th pointer handed to a transmission is the k-th name it declares; every declaration has its own joint state, freshly
    constructed apart from the joint it belongs to; the actuators are not touched. *)
Theorem C40_wiring : forall r hw m s m', rb_hw r = Some hw -> new_robotstate K dbg g r m = Ok (s, m') ->
  List.length (rs_in s) = List.length (rb_transmissions r) /\ List.length (rs_out s) = List.length (rb_transmissions r) /\
  (forall i k n, declares_actuator K r i k n -> exists a, pointer_at (rs_in s) i k a /\ getActuator hw n = Some a) /\
  (forall i k a, pointer_at (rs_in s) i k a -> exists n, declares_actuator K r i k n) /\
  (forall i k n, declares_joint K r i k n -> exists p, pointer_at (rs_out s) i k p /\ p < rs_size s /\
     m_js m' p = set_js_joint (rb_joint r n) (new_jointstate g)) /\
  (forall i k p, pointer_at (rs_out s) i k p -> exists n, declares_joint K r i k n) /\
  (forall p, p < rs_size s -> exists i k, pointer_at (rs_out s) i k p) /\
  (forall i k i' k' p, pointer_at (rs_out s) i k p -> pointer_at (rs_out s) i' k' p -> i = i' /\ k = k') /\
  m_act m' = m_act m.
Proof.
  intros r hw m s m' HW E. destruct (robotstate_spec K dbg g r hw m s m' HW E) as (I & LO & O & CC & SZ & MP & MA & MJ & _).
  set (ts := rb_transmissions r) in *.
  assert (PO : forall i k p, pointer_at (rs_out s) i k p -> exists t, nth_error ts i = Some t /\ k < List.length (tr_joints K t) /\ p = offset K ts i + k).
  { intros i k p (ps & X & Y). destruct (nth_error ts i) as [t|] eqn:NT.
    - rewrite (O _ _ NT) in X. injection X as <-. apply nth_error_seq_some in Y. exists t. intuition.
    - exfalso. apply nth_error_None in NT. assert (i < List.length (rs_out s)) by (apply nth_error_Some; congruence). lia. }
  assert (II : forall i t, nth_error ts i = Some t -> exists ps, nth_error (rs_in s) i = Some ps /\ Forall2 (fun n a => getActuator hw n = Some a) (tr_actuators K t) ps).
  { clear - I. induction I as [|t ps ts pss H I IH]; intros [|i] u U; try discriminate; cbn in *; [injection U as <-; eauto|eauto]. }
  assert (F2 : forall names ps, Forall2 (fun n a => getActuator hw n = Some a) names ps -> forall k,
     (forall n, nth_error names k = Some n -> exists a, nth_error ps k = Some a /\ getActuator hw n = Some a) /\
     (forall a, nth_error ps k = Some a -> exists n, nth_error names k = Some n)).
  { clear. induction 1 as [|n a names ps H F IH]; intros [|k]; cbn; split; intros x X; try discriminate.
    - injection X as <-. eauto.
    - injection X as <-. eauto.
    - apply IH. auto.
    - eapply IH. eauto. }
  assert (LI : List.length (rs_in s) = List.length ts) by (symmetry; eapply Forall2_length; eauto).
  repeat apply conj; auto.
  - intros i k n (t & NT & NK). destruct (II _ _ NT) as (ps & X & Y). destruct (F2 _ _ Y k) as [F _]. destruct (F _ NK) as (a & A1 & A2).
    exists a. split; auto. exists ps. auto.
  - intros i k a (ps & X & Y). destruct (nth_error ts i) as [t|] eqn:NT.
    + destruct (II _ _ NT) as (ps' & X' & Y'). rewrite X in X'. injection X' as <-. destruct (F2 _ _ Y' k) as [_ F]. destruct (F _ Y) as (n & NN). exists n, t. auto.
    + exfalso. apply nth_error_None in NT. assert (i < List.length (rs_in s)) by (apply nth_error_Some; congruence). lia.
  - intros i k n (t & NT & NK). exists (offset K ts i + k). assert (KL : k < List.length (tr_joints K t)) by (apply nth_error_Some; congruence). repeat split.
    + exists (seq (offset K ts i) (List.length (tr_joints K t))). split; [apply O; auto|]. apply nth_error_seq_some. auto.
    + rewrite SZ. eapply offset_bound; eauto.
    + apply MJ. apply flat_index. exists i, t, k. auto.
  - intros i k p X. destruct (PO _ _ _ X) as (t & NT & KL & _). destruct (nth_error (tr_joints K t) k) as [n|] eqn:NK; [exists n, t; auto|].
    apply nth_error_None in NK. lia.
  - intros p X. rewrite SZ in X. destruct (nth_error (flat_map (tr_joints K) ts) p) as [n|] eqn:NP; [|apply nth_error_None in NP; lia].
    apply flat_index in NP. destruct NP as (i & t & k & NT & NK & ->). exists i, k. exists (seq (offset K ts i) (List.length (tr_joints K t))).
    split; [apply O; auto|]. apply nth_error_seq_some. split; auto. apply nth_error_Some. congruence.
  - intros i k i' k' p X X'. destruct (PO _ _ _ X) as (t & NT & KL & ->). destruct (PO _ _ _ X') as (t' & NT' & KL' & EQ).
    assert (A := flat_order K ts i t k i' t' k' NT KL NT' KL'). assert (B := flat_order K ts i' t' k' i t k NT' KL' NT KL).
    unfold later in A, B. destruct A as [A _], B as [B _]. destruct (Nat.eq_dec i i') as [->|NE].
    + split; auto. lia.
    + exfalso. destruct (Nat.lt_gt_cases i i') as [H _]. destruct (H NE) as [Q|Q]; [specialize (A (or_introl Q)); lia|specialize (B (or_introl Q)); lia].
Qed.

(** Lookup by name finds the joint state of the declaration of that name (of the last one, if several transmissions declare
    the same joint), and NULL iff no transmission declares it. *)
Theorem C40_lookup : forall r hw m s m' n, rb_hw r = Some hw -> new_robotstate K dbg g r m = Ok (s, m') ->
  match getJointState s n with
  | Some p => js_joint (m_js m' p) = rb_joint r n /\
      exists i k, declares_joint K r i k n /\ pointer_at (rs_out s) i k p /\ forall i' k', declares_joint K r i' k' n -> ~ later i k i' k'
  | None => forall i k, ~ declares_joint K r i k n
  end.
Proof.
  intros r hw m s m' n HW E. destruct (robotstate_spec K dbg g r hw m s m' HW E) as (_ & _ & O & _ & SZ & MP & _ & MJ & _).
  set (ts := rb_transmissions r) in *. set (names := flat_map (tr_joints K) ts) in *.
  assert (LK := lookup_spec n names 0 []). rewrite app_nil_r in LK. unfold getJointState. rewrite MP.
  destruct (find _ _) as [[x p]|].
  - destruct LK as [(q & -> & Q1 & Q2)|[_ X]]; [|discriminate]. cbn [Nat.add]. split; [rewrite (MJ _ _ Q1); reflexivity|].
    assert (Q1' := Q1). apply flat_index in Q1'. destruct Q1' as (i & t & k & NT & NK & ->).
    assert (KL : k < List.length (tr_joints K t)) by (apply nth_error_Some; congruence).
    exists i, k. split; [exists t; auto|]. split.
    + exists (seq (offset K ts i) (List.length (tr_joints K t))). split; [apply O; auto|]. apply nth_error_seq_some. auto.
    + intros i' k' (t' & NT' & NK') LT. assert (KL' : k' < List.length (tr_joints K t')) by (apply nth_error_Some; congruence).
      apply (flat_order K ts i t k i' t' k' NT KL NT' KL') in LT.
      assert (Z : offset K ts i' + k' <= offset K ts i + k) by (apply Q2; apply flat_index; exists i', t', k'; auto). lia.
  - destruct LK as [NI _]. intros i k (t & NT & NK). apply NI. apply in_flat_map. exists t. split; eapply nth_error_In; eauto.
Qed.

(** ** C38: isHalted reports exactly whether an actuator attached to a transmission is halted. *)
Theorem C38_halted_iff : forall r hw m s m' (m1 : mem T), rb_hw r = Some hw -> new_robotstate K dbg g r m = Ok (s, m') ->
  (isHalted s m1 = true <->
   exists t n a, In t (rb_transmissions r) /\ In n (tr_actuators K t) /\ getActuator hw n = Some a /\ a_halted (m_act m1 a) = true).
Proof.
  intros r hw m s m' m1 HW E. destruct (robotstate_spec K dbg g r hw m s m' HW E) as (I & _). unfold isHalted. rewrite existsb_exists. split.
  - intros (ps & IP & H). apply existsb_exists in H. destruct H as (a & IA & HA).
    revert ps IP IA. induction I as [|t qs ts qss F I IH]; intros ps IP IA; [contradiction|]. destruct IP as [<-|IP].
    + clear I IH. exists t. enough (exists n, In n (tr_actuators K t) /\ getActuator hw n = Some a) as (n & X & Y) by (exists n, a; cbn; auto).
      induction F as [|n b names ps X F IH]; [contradiction|]. destruct IA as [<-|IA]; [exists n; cbn; auto|]. destruct (IH IA) as (n' & Z1 & Z2). exists n'. cbn. auto.
    + destruct (IH _ IP IA) as (t' & n & a' & X & Y & Z). exists t', n, a'. cbn. auto.
  - intros (t & n & a & IT & IN & GA & HA).
    induction I as [|u qs ts qss F I IH]; [contradiction|]. destruct IT as [->|IT].
    + exists qs. split; [left; auto|]. apply existsb_exists. exists a. split; auto. clear - F IN GA.
      induction F as [|x b names ps X F IH]; [contradiction|]. destruct IN as [->|IN]; [left; congruence|right; auto].
    + destruct (IH IT) as (ps & X & Y). exists ps. split; [right; auto|auto].
Qed.
End C40.

Section C66.
Context {T : Type} {N : Num T} {G : Trig T}.
Variables (dbg : bool) (P : parsers T) (L : loader (transmission T)).
Hypothesis HL : forall c t, ld_create L c = Some t -> is_new t.
Notation K := (builtin dbg P).

(** The RobotState of a robot loaded by initXml can always be constructed: no assertion fails. *)
Theorem C40_constructor_succeeds : forall urdf root h hw r' h' g m,
  robot_initXml K L urdf root h (new_robot (Some hw)) = Ok (true, r', h') ->
  exists s m', new_robotstate K dbg g r' m = Ok (s, m').
Proof.
  intros urdf root h hw r' h' g m E. destruct (C41_loaded_names_known_and_enabled dbg P L HL _ _ _ _ _ _ E) as [A _].
  assert (HW : rb_hw r' = Some hw).
  { destruct (C41_loaded_in_document_order dbg P L HL _ _ _ _ _ _ _ E) as ([X _] & _ & Y). destruct (X eq_refl) as [_ U].
    destruct (urdf root) as [joints|] eqn:UR; [|congruence]. destruct (Y hw joints eq_refl eq_refl) as [Z _]. exact Z. }
  apply (robotstate_total K dbg g r' hw m HW). intros t n I J. destruct (A t n I J) as (a & X & _). congruence.
Qed.

Section Run.
Variable sim : bool.
Lemma run_ops_fine : forall s ops ts m, all_fit sim dbg P ts (rs_in s) (rs_out s) -> (forall o q, In o (rs_out s) -> In q o -> q < rs_size s) ->
  (forall p, In p (seq 0 (rs_size s)) -> js_joint (m_js m p) <> None) -> Forall fair_op ops -> Forall (fun o => simulator_op o -> sim = true) ops ->
  exists ts1 m1, run_ops K s ops ts m = Ok (ts1, m1) /\ all_fit sim dbg P ts1 (rs_in s) (rs_out s) /\ Forall2 same_parameters ts ts1 /\ same_joints m m1.
Proof.
  intros s ops ts m FIT OUT JN FO SO. revert ts m FIT JN. induction FO as [|o ops FOo FO IH]; intros ts m FIT JN; cbn [run_ops].
  { exists ts, m. split; [reflexivity|]. split; [exact FIT|]. split; [apply same_parameters_all|apply same_joints_refl]. }
  inversion SO as [|? ? SOo SO']; subst. specialize (IH SO').
  assert (TR : forall m2, same_joints m m2 -> forall p, In p (seq 0 (rs_size s)) -> js_joint (m_js m2 p) <> None) by (intros m2 SJ p IP; rewrite SJ; auto).
  assert (JO : forall o q, In o (rs_out s) -> In q o -> js_joint (m_js m q) <> None) by (intros o1 q IO IQ; apply JN; apply in_seq; specialize (OUT _ _ IO IQ); lia).
  assert (FIN : forall ts' m2, all_fit sim dbg P ts' (rs_in s) (rs_out s) -> Forall2 same_parameters ts ts' -> same_joints m m2 ->
            exists ts1 m1, run_ops K s ops ts' m2 = Ok (ts1, m1) /\ all_fit sim dbg P ts1 (rs_in s) (rs_out s) /\ Forall2 same_parameters ts ts1 /\ same_joints m m1).
  { intros ts' m2 F2 P2 S2. destruct (IH ts' m2 F2 (TR _ S2)) as (ts1 & m1 & E & F1 & P1 & S1). exists ts1, m1. split; [exact E|]. split; [exact F1|].
    split; [eapply same_parameters_all_trans; eauto|]. eapply same_joints_trans; eauto. }
  destruct o; cbn [fair_op simulator_op] in FOo, SOo.
  - unfold propagateActuatorPositionToJointPosition.
    destruct (over_fine sim dbg P (fun t i o => tr_position K t i o) (fun t i o m A B _ => position_fine sim dbg P t i o m A B) ts (rs_in s) (rs_out s) m FIT JO) as (ts' & m1 & -> & FIT' & _ & PA & SJ). cbn [bind].
    destruct (over_joints_fine update_statistics (seq 0 (rs_size s)) (fun j => stats_fine j) m1 (TR _ SJ)) as (m2 & -> & SJ2 & _). cbn [bind].
    apply FIN; auto. eapply same_joints_trans; eauto.
  - unfold zeroCommands. destruct (over_joints_fine _ (seq 0 (rs_size s)) (fun j => zero_fine j) m JN) as (m2 & -> & SJ2 & _). cbn [bind]. apply FIN; auto. apply same_parameters_all.
  - unfold enforceSafety. destruct (over_joints_fine enforceLimits (seq 0 (rs_size s)) (fun j => enforce_fine j) m JN) as (m2 & -> & SJ2 & _). cbn [bind]. apply FIN; auto. apply same_parameters_all.
  - unfold propagateJointEffortToActuatorEffort.
    destruct (over_fine sim dbg P (fun t i o => tr_effort K t o i) (fun t i o m A B _ => effort_fine sim dbg P t i o m A B) ts (rs_in s) (rs_out s) m FIT JO) as (ts' & m1 & -> & FIT' & _ & PA & SJ). cbn [bind].
    apply FIN; auto.
  - apply FIN; auto; [apply same_parameters_all|]. intros p. apply FOo.
  - unfold propagateJointPositionToActuatorPosition. specialize (SOo I).
    destruct (over_fine sim dbg P (fun t i o => tr_positionBackwards K e t o i) (fun t i o m A B C => positionBack_fine sim dbg P e t i o m SOo A B C) ts (rs_in s) (rs_out s) m FIT JO) as (ts' & m1 & -> & FIT' & _ & PA & SJ). cbn [bind].
    apply FIN; auto.
  - unfold propagateActuatorEffortToJointEffort. specialize (SOo I).
    destruct (over_fine sim dbg P (fun t i o => tr_effortBackwards K t i o) (fun t i o m A B C => effortBack_fine sim dbg P t i o m SOo A B) ts (rs_in s) (rs_out s) m FIT JO) as (ts' & m1 & -> & FIT' & _ & PA & SJ). cbn [bind].
    apply FIN; auto.
Qed.

Lemma loaded_fit : forall urdf root h hw r' h' g m s m',
  robot_initXml K L urdf root h (new_robot (Some hw)) = Ok (true, r', h') ->
  (forall e, In e (ChildElements root "transmission") -> usable L e) ->
  (sim = true -> forall e, In e (ChildElements root "transmission") -> simulatable P L e) ->
  new_robotstate K dbg g r' m = Ok (s, m') ->
  all_fit sim dbg P (rb_transmissions r') (rs_in s) (rs_out s) /\
  (forall p, In p (seq 0 (rs_size s)) -> js_joint (m_js m' p) <> None) /\ rb_hw r' = Some hw /\
  (forall o q, In o (rs_out s) -> In q o -> q < rs_size s).
Proof.
  intros urdf root h hw r' h' g m s m' E US SM NS.
  destruct (C41_loaded_names_known_and_enabled dbg P L HL _ _ _ _ _ _ E) as [_ [A _]].
  assert (HW : rb_hw r' = Some hw /\ Forall (ready sim) (rb_transmissions r')).
  { destruct (C41_loaded_in_document_order dbg P L HL _ _ _ _ _ _ _ E) as ([X _] & _ & Y). destruct (X eq_refl) as [_ U].
    destruct (urdf root) as [joints|] eqn:UR; [|congruence]. destruct (Y hw joints eq_refl eq_refl) as (Z & _ & picks & F & TS). split; auto.
    rewrite TS. cbn [new_robot rb_transmissions app]. clear - F US SM HL. induction F as [|e o els picks Fo F IH]; [constructor|]. cbn [flat_map].
    apply Forall_app. split; [|apply IH; [intros x I; apply US; right; auto|intros SI x I; apply SM; auto; right; auto]].
    destruct o as [t|]; constructor; auto. eapply (accepted_ready sim dbg P L _ e); eauto; [apply US; left; auto|intros SI; apply SM; auto; left; auto]. }
  destruct HW as [HW RD]. destruct (robotstate_spec K dbg g r' hw m s m' HW NS) as (I & LO & O & CC & SZ & MP & MA & MJ & _).
  set (ts := rb_transmissions r') in *.
  split; [|split; [|split; auto]].
  { split; auto. split.
    - clear - I. induction I as [|t ps ts pss F I IH]; constructor; auto. symmetry. eapply Forall2_length; eauto.
    - assert (O' : forall i t, nth_error ts i = Some t -> exists o, nth_error (rs_out s) i = Some o /\ List.length o = List.length (tr_joints K t)).
      { intros i t NT. rewrite (O _ _ NT). eexists. split; [reflexivity|apply seq_length]. }
      clear - LO O'. revert LO O'. generalize (rs_out s). clearbody ts. clear. induction ts as [|t ts IH]; intros [|o outs] LO O; try discriminate; constructor.
      + destruct (O 0 t eq_refl) as (o' & X & Y). cbn in X. injection X as ->. exact Y.
      + apply IH; [cbn in LO; lia|]. intros i u U. apply (O (S i) u U). }
  - intros p IP. apply in_seq in IP. cbn in IP. rewrite SZ in IP. destruct (nth_error (flat_map (tr_joints K) ts) p) as [n|] eqn:NP; [|apply nth_error_None in NP; lia].
    rewrite (MJ _ _ NP). cbn [js_joint set_js_joint]. apply nth_error_In in NP. apply in_flat_map in NP. destruct NP as (t & I1 & I2). eapply A; eauto.
  - intros o q IO IQ. assert (IC : In q (List.concat (rs_out s))) by (apply in_concat; eauto). rewrite CC in IC. apply in_seq in IC. rewrite SZ. lia.
Qed.
End Run.

(** ... and, for usable descriptions, no sequence of control-loop calls, with anything written in between by the hardware
    and the controllers, ever crashes, aborts or hangs: with assertions enabled or not.  No call changes what a transmission
    read from its description. *)
Theorem C66_cycle_never_crashes : forall urdf root h hw r' h' g m s m' ops,
  robot_initXml K L urdf root h (new_robot (Some hw)) = Ok (true, r', h') ->
  (forall e, In e (ChildElements root "transmission") -> usable L e) ->
  new_robotstate K dbg g r' m = Ok (s, m') -> Forall fair_op ops -> Forall (fun o => ~ simulator_op o) ops ->
  exists ts1 m1, run_ops K s ops (rb_transmissions r') m' = Ok (ts1, m1) /\ Forall2 same_parameters (rb_transmissions r') ts1.
Proof.
  intros urdf root h hw r' h' g m s m' ops E US NS FO SO.
  destruct (loaded_fit false _ _ _ _ _ _ _ _ _ _ E US ltac:(discriminate) NS) as (FIT & JN & _ & OUT).
  destruct (run_ops_fine false s ops _ m' FIT OUT JN FO) as (ts1 & m1 & R1 & _ & PA & _); [|eauto].
  eapply Forall_impl; [|exact SO]. intros o A B. contradiction.
Qed.

(** For descriptions that can be simulated the same holds when a simulator calls the backward functions as well. *)
Theorem C66_simulation_never_crashes : forall urdf root h hw r' h' g m s m' ops,
  robot_initXml K L urdf root h (new_robot (Some hw)) = Ok (true, r', h') ->
  (forall e, In e (ChildElements root "transmission") -> simulatable P L e) ->
  new_robotstate K dbg g r' m = Ok (s, m') -> Forall fair_op ops ->
  exists ts1 m1, run_ops K s ops (rb_transmissions r') m' = Ok (ts1, m1) /\ Forall2 same_parameters (rb_transmissions r') ts1.
Proof.
  intros urdf root h hw r' h' g m s m' ops E US NS FO.
  destruct (loaded_fit true _ _ _ _ _ _ _ _ _ _ E (fun e I => proj1 (US e I)) (fun _ => US) NS) as (FIT & JN & _ & OUT).
  destruct (run_ops_fine true s ops _ m' FIT OUT JN FO) as (ts1 & m1 & R1 & _ & PA & _); [|eauto].
  clear. induction ops; constructor; auto.
Qed.
End C66.

(** ** Examples *)
Local Open Scope string_scope.
Local Open Scope list_scope.
Definition ex_simple_el (joint act : string) (sims : list xml) : xml :=
  Elem "transmission" [("type", "pr2_mechanism_model/SimpleTransmission"); ("name", joint ++ "_trans")%string] None
    ([Elem "joint" [("name", joint)] None []; Elem "actuator" [("name", act)] None [];
      Elem "mechanicalReduction" [] (Some "2") []] ++ sims).
Definition ex_sim (joint : string) : xml := Elem "simulated_actuated_joint" [("name", joint); ("simulated_reduction", "2")] None [].
Definition ex_root (extra : list xml) : xml := Elem "robot" [] None
  ([ex_simple_el "j0" "m0" [];
    Elem "transmission" [("type", "SimpleTransmission"); ("name", "short")] None (x_children (ex_simple_el "j1" "m1" []));
    Elem "link" [] None [];
    Elem "transmission" [("type", "pr2_mechanism_model/GripperTransmission")] None [];
    ex_simple_el "j1" "m9" [];
    ex_simple_el "j1" "m1" []] ++ extra).
Definition ex_P : parsers R := mkParsers (fun _ => 2%R) (fun _ => Some 2%R) (fun _ => Some 2%R).
Definition ex_cal0 : calsim R := new_calsim 0%R 0%R 0%R 0%R false false.
Definition ex_L : loader (transmission R) :=
  pr2_loader (new_gripper 0%R false ex_cal0) (new_simple 0%R 0%R false ex_cal0) (new_wrist false ex_cal0 ex_cal0)
    (mkBelt "" [] [] 0 0%R 0%R 0%R 0%R 0%R 0%R 0%R 0%R 0%R 0%R 0%R 0%R 0%R 0%R 0%R 0%R 0%R 0%R 0%R 0%R 0 0%R 0%R 0%R 0%R 0%R 0%R 0%R false 0 ex_cal0).
Definition ex_uj (n : string) : ujoint R := mkUjoint n JCONTINUOUS None None None.
Definition ex_urdf (_ : xml) : option (string -> option (ujoint R)) :=
  Some (fun n => if existsb (String.eqb n) ["j0"; "j1"; "j2"] then Some (ex_uj n) else None).
Definition ex_hw : hwif := fst (addActuator "m1" 1 (fst (addActuator "m0" 0 new_hwif))).
Definition ex_h0 : nat -> actuator R := fun _ => new_actuator 0%R.
Definition ex_st (joint act : string) : transmission R :=
  TSimple (mkSimple (joint ++ "_trans")%string [act] [joint] 2%R 0%R false false 0 ex_cal0).

(** the loader only makes objects of this package *)
Theorem C41_ex_loader : forall c t, ld_create ex_L c = Some t -> is_new t.
Proof.
  intros c t. unfold ex_L, pr2_loader. cbn [ld_create].
  repeat (match goal with |- (if ?x then _ else _) = _ -> _ => destruct x end; [intros [= <-]; cbn; unfold new_gripper, new_simple, new_wrist; eauto 8|]). discriminate.
Qed.
(** of six elements the two valid ones are loaded; the others (wrong prefix, missing class, unknown actuator) are skipped *)
Theorem C41_ex : exists h', robot_initXml (builtin true ex_P) ex_L ex_urdf (ex_root []) ex_h0 (new_robot (Some ex_hw)) =
  Ok (true, mkRobot (Some ex_hw) (fun n => if existsb (String.eqb n) ["j0"; "j1"; "j2"] then Some (ex_uj n) else None) [ex_st "j0" "m0"; ex_st "j1" "m1"], h').
Proof. eexists. reflexivity. Qed.

Definition ex_robot : robot (transmission R) R :=
  mkRobot (Some ex_hw) (fun n => if existsb (String.eqb n) ["j0"; "j1"; "j2"] then Some (ex_uj n) else None) [ex_st "j0" "m0"; ex_st "j1" "m1"].
Definition ex_mem0 : mem R := mkMem ex_h0 (fun _ => new_jointstate 0%R).
Theorem C40_ex : exists m', new_robotstate (builtin true ex_P) true 0%R ex_robot ex_mem0 =
  Ok (mkRstate 2 [[0]; [1]] [[0]; [1]] [("j1", 1); ("j0", 0)], m').
Proof. eexists. reflexivity. Qed.
Theorem C38_ex : isHalted (mkRstate 2 [[0]; [1]] [[0]; [1]] [("j1", 1); ("j0", 0)]) (act_upd 1 (set_a_halted true) ex_mem0) = true /\
  isHalted (mkRstate 2 [[0]; [1]] [[0]; [1]] [("j1", 1); ("j0", 0)]) (act_upd 7 (set_a_halted true) ex_mem0) = false.
Proof. split; reflexivity. Qed.
Theorem C66_ex : forall e, In e (ChildElements (ex_root []) "transmission") -> usable ex_L e.
Proof.
  intros e I ty c t D C CR. cbn in I.
  destruct t; auto; destruct I as [<-|[<-|[<-|[<-|[<-|[]]]]]]; cbn; auto; exfalso;
  inversion D as [ty' A|x ty' A B]; subst; cbn in A; try discriminate; injection A as <-;
  inversion C as [AV|pre c0 post AV E1 E2 E3|AV X]; subst; try (vm_compute in AV; discriminate); try (vm_compute in CR; discriminate).
  cbn [ld_declared ex_L pr2_loader] in E1. assert (IN : In c pr2_classes) by (rewrite E1; apply in_or_app; right; left; auto).
  destruct IN as [<-|[<-|[<-|[<-|[<-|[]]]]]]; vm_compute in E2; try discriminate; vm_compute in CR; discriminate.
Qed.

(** The usable hypothesis of C66 is needed: a SimpleTransmission with two simulated_actuated_joint elements is accepted, and
    the first control cycle then fails an assertion. *)
Definition ex_robot2 : robot (transmission R) R :=
  mkRobot (Some ex_hw) (fun n => if existsb (String.eqb n) ["j0"; "j1"; "j2"] then Some (ex_uj n) else None)
    [TSimple (mkSimple "j0_trans" ["m0"] ["j0"; "j1"; "j2"] 2%R 2%R true false 0 ex_cal0)].
Definition ex_state2 : rstate := mkRstate 3 [[0]] [[0; 1; 2]] [("j2", 2); ("j1", 1); ("j0", 0)].
Theorem C66_two_simulated_joints_abort :
  (exists h', robot_initXml (builtin true ex_P) ex_L ex_urdf (Elem "robot" [] None [ex_simple_el "j0" "m0" [ex_sim "j1"; ex_sim "j2"]]) ex_h0 (new_robot (Some ex_hw)) = Ok (true, ex_robot2, h')) /\
  (exists m', new_robotstate (builtin true ex_P) true 0%R ex_robot2 ex_mem0 = Ok (ex_state2, m')) /\
  forall m', propagateActuatorPositionToJointPosition (builtin true ex_P) ex_state2 (rb_transmissions ex_robot2) m' = Abort.
Proof. split; [eexists; reflexivity|]. split; [eexists; reflexivity|]. intros m'. reflexivity. Qed.
