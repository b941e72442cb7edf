(** Robot::initXml and the transmissions' initXml. *)
From Coq Require Import List String Arith Bool ZArith Lia.
From Verif.Model Require Import Base Num Joint Hardware Xml Transmission Simple Wrist Belt Gripper Robot Builtin.
From Verif.Spec Require Import RobotSpec.
From Verif.Proofs Require Import TransmissionProofs RobotProofs.
Import ListNotations.

Section Load.
Context {T : Type} {N : Num T} {G : Trig T}.

Definition enable_list (ps : list nat) (h : nat -> actuator T) : nat -> actuator T :=
  fold_left (fun h a => upd a (set_a_enable true) h) ps h.
Definition lift {A} (out : res (option A * list nat)) (h : nat -> actuator T) : res (option A * (nat -> actuator T)) :=
  do (o, ps) <- out; Ok (o, enable_list ps h).

Lemma enable_list_app ps qs h : enable_list (ps ++ qs) h = enable_list qs (enable_list ps h).
Proof. apply fold_left_app. Qed.
Lemma enable_list_at ps : forall h p, a_enable (enable_list ps h p) = a_enable (h p) || existsb (Nat.eqb p) ps.
Proof.
  induction ps as [|q ps IH]; intros h p; cbn [enable_list fold_left existsb]; [rewrite orb_false_r; auto|].
  fold (enable_list ps (upd q (set_a_enable true) h)). rewrite IH. unfold upd. destruct (p =? q); cbn; auto.
  rewrite orb_true_r. reflexivity.
Qed.
Lemma enable_list_same ps : forall h p, same_but_enable (h p) (enable_list ps h p).
Proof.
  unfold same_but_enable. induction ps as [|q ps IH]; intros h p; cbn [enable_list fold_left]; auto.
  fold (enable_list ps (upd q (set_a_enable true) h)). rewrite <- IH. unfold upd. destruct (p =? q); auto.
Qed.

(** an initXml that only enables actuators, and whose success means that everything declared is known *)
Definition behaves {A} (acts joints : A -> list string) (R : rview T) (run : (nat -> actuator T) -> res (option A * (nat -> actuator T))) : Prop :=
  exists out, (forall h, run h = lift out h) /\
    forall t ps, out = Ok (Some t, ps) ->
      (forall n, In n (acts t) -> exists a, rv_actuator R n = Some a /\ In a ps) /\ (forall n, In n (joints t) -> rv_joint R n <> None).

Ltac none := exists (Ok (None, [])); split; [reflexivity|intros; discriminate].
Ltac one a := exists (Ok (None, [a])); split; [reflexivity|intros; discriminate].

Lemma sim_loop_names P known : forall els (t t' : simple T), simple_sim_loop P known els t = Some t' ->
  st_actuators t' = st_actuators t /\ (forall n, In n (st_joints t') -> In n (st_joints t) \/ known n = true).
Proof.
  induction els as [|j els IH]; intros t t' E; cbn [simple_sim_loop] in E; [injection E as <-; auto|].
  destruct (Attribute j "name") as [jn|]; [|apply IH in E; exact E].
  destruct (known jn) eqn:Kn; [|apply IH in E; exact E].
  destruct (Attribute j "simulated_reduction") as [r|]; [|discriminate]. destruct (p_lexical P r); [|discriminate].
  apply IH in E. cbn in E. destruct E as [E1 E2]. split; auto. intros n I. destruct (E2 n I) as [I'|]; auto.
  apply in_app_or in I'. destruct I' as [|[<-|[]]]; auto.
Qed.

Lemma known_some (R : rview T) n : (match rv_joint R n with Some _ => true | None => false end) = true -> rv_joint R n <> None.
Proof. destruct (rv_joint R n); congruence. Qed.

Lemma simple_behaves P R e g1 g2 b c : behaves st_actuators st_joints R (fun h => simple_initXml P R e h (new_simple g1 g2 b c)).
Proof.
  unfold simple_initXml. destruct (match FirstChildElement e "joint" with Some jel => Attribute jel "name" | None => None end) as [jn|]; [|none].
  destruct (rv_joint R jn) eqn:J; [|none]. destruct (FirstChildElement e "actuator") as [ael|]; [|none].
  destruct (Attribute ael "name") as [an|]; [|none]. destruct (rv_actuator R an) as [a|] eqn:A; [|none].
  destruct (match FirstChildElement ael "mechanicalReduction" with Some _ => _ | None => _ end) as [red| | |].
  - cbn [bind]; cbv zeta. match goal with |- context [simple_sim_loop P ?k ?l ?s] => set (t0 := s); set (o := simple_sim_loop P k l t0); assert (HO : o = simple_sim_loop P k l t0) by reflexivity end.
    clearbody o. exists (Ok (o, [a])). split; [reflexivity|]. intros t ps [= -> <-]. symmetry in HO. apply sim_loop_names in HO.
    destruct HO as [H1 H2]. cbn in H1, H2. rewrite H1. split.
    + intros n [<-|[]]. exists a. split; auto. left; auto.
    + intros n I. destruct (H2 n I) as [[<-|[]]|X]; [congruence|apply known_some; auto].
  - exists UB. split; [reflexivity|discriminate].
  - exists Abort. split; [reflexivity|discriminate].
  - exists Hang. split; [reflexivity|discriminate].
Qed.

Lemma wrist_actuator_out P (R : rview T) e tag (t : wrist T) : exists o ps,
  (forall h, wrist_actuator P (rv_actuator R) e tag h t = (o, enable_list ps h)) /\
  (forall t', o = Some t' -> exists n a, wt_actuators t' = wt_actuators t ++ [n] /\ rv_actuator R n = Some a /\ In a ps /\ wt_joints t' = wt_joints t).
Proof.
  unfold wrist_actuator. destruct (FirstChildElement e tag) as [ael|]; [|exists None, []; split; [reflexivity|discriminate]].
  destruct (Attribute ael "name") as [an|]; [|exists None, []; split; [reflexivity|discriminate]].
  destruct (rv_actuator R an) as [a|] eqn:A; [|exists None, []; split; [reflexivity|discriminate]].
  destruct (Attribute ael "mechanicalReduction") as [r|]; [|exists None, [a]; split; [reflexivity|discriminate]].
  eexists (Some _), [a]. split; [reflexivity|]. intros t' [= <-]. exists an, a. cbn. auto.
Qed.
Lemma wrist_joint_ok P (R : rview T) e tag (t t' : wrist T) j :
  wrist_joint P (fun n => match rv_joint R n with Some _ => true | None => false end) e tag t = Ok (Some (t', j)) ->
  exists n, wt_joints t' = wt_joints t ++ [n] /\ rv_joint R n <> None /\ wt_actuators t' = wt_actuators t.
Proof.
  unfold wrist_joint. destruct (deref _) as [x| | |]; cbn [bind]; try discriminate. destruct (Attribute x "name") as [jn|]; [|discriminate].
  destruct (rv_joint R jn) as [u|] eqn:J; [|discriminate].
  destruct (Attribute x "mechanicalReduction"); [|discriminate]. intros [= <- <-]. exists jn. cbn. repeat split; congruence.
Qed.
Lemma wrist_behaves P R e b c0 c1 : behaves wt_actuators wt_joints R (fun h => wrist_initXml P R e h (new_wrist b c0 c1)).
Proof.
  unfold wrist_initXml. cbv zeta.
  match goal with |- context [wrist_actuator P (rv_actuator R) e "rightActuator" _ ?s] => set (t0 := s) end.
  destruct (wrist_actuator_out P R e "rightActuator" t0) as (o1 & ps1 & H1 & H1').
  destruct o1 as [t1|]; [|exists (Ok (None, ps1)); split; [intros h; rewrite H1; reflexivity|discriminate]].
  destruct (wrist_actuator_out P R e "leftActuator" t1) as (o2 & ps2 & H2 & H2').
  destruct o2 as [t2|]; [|exists (Ok (None, ps1 ++ ps2)); split; [intros h; rewrite H1, H2; unfold lift; cbn [bind]; rewrite enable_list_app; reflexivity|discriminate]].
  destruct (H1' _ eq_refl) as (n1 & a1 & X1 & X2 & X3 & X4). destruct (H2' _ eq_refl) as (n2 & a2 & Y1 & Y2 & Y3 & Y4).
  set (kn := fun n => match rv_joint R n with Some _ => true | None => false end).
  destruct (wrist_joint P kn e "flexJoint" t2) as [[[t3 j3]|]| | |] eqn:F.
  2: { exists (Ok (None, ps1 ++ ps2)); split; [intros h; rewrite H1, H2, F; unfold lift; cbn [bind]; rewrite enable_list_app; reflexivity|discriminate]. }
  2: { exists UB; split; [intros h; rewrite H1, H2, F; reflexivity|discriminate]. }
  2: { exists Abort; split; [intros h; rewrite H1, H2, F; reflexivity|discriminate]. }
  2: { exists Hang; split; [intros h; rewrite H1, H2, F; reflexivity|discriminate]. }
  assert (F' := F). apply wrist_joint_ok in F'. destruct F' as (n3 & Z1 & Z2 & Z3).
  destruct (wrist_offset P (Attribute j3 "offset")) as [o0|] eqn:O0.
  2: { exists (Ok (None, ps1 ++ ps2)); split; [intros h; rewrite H1, H2, F; cbn [bind]; rewrite O0; unfold lift; cbn [bind]; rewrite enable_list_app; reflexivity|discriminate]. }
  destruct (wrist_joint P kn e "rollJoint" (set_wt_off0 o0 t3)) as [[[t4 j4]|]| | |] eqn:F2.
  2: { exists (Ok (None, ps1 ++ ps2)); split; [intros h; rewrite H1, H2, F; cbn [bind]; rewrite O0, F2; unfold lift; cbn [bind]; rewrite enable_list_app; reflexivity|discriminate]. }
  2: { exists UB; split; [intros h; rewrite H1, H2, F; cbn [bind]; rewrite O0, F2; reflexivity|discriminate]. }
  2: { exists Abort; split; [intros h; rewrite H1, H2, F; cbn [bind]; rewrite O0, F2; reflexivity|discriminate]. }
  2: { exists Hang; split; [intros h; rewrite H1, H2, F; cbn [bind]; rewrite O0, F2; reflexivity|discriminate]. }
  assert (F2' := F2). apply wrist_joint_ok in F2'. cbn in F2'. destruct F2' as (n4 & W1 & W2 & W3).
  destruct (wrist_offset P (Attribute j4 "offset")) as [o1|] eqn:O1.
  2: { exists (Ok (None, ps1 ++ ps2)); split; [intros h; rewrite H1, H2, F; cbn [bind]; rewrite O0, F2; cbn [bind]; rewrite O1; unfold lift; cbn [bind]; rewrite enable_list_app; reflexivity|discriminate]. }
  exists (Ok (Some (set_wt_off1 o1 t4), ps1 ++ ps2)). split.
  { intros h; rewrite H1, H2, F; cbn [bind]; rewrite O0, F2; cbn [bind]; rewrite O1; unfold lift; cbn [bind]; rewrite enable_list_app; reflexivity. }
  intros t ps [= <- <-]. cbn [wt_actuators wt_joints set_wt_off1]. rewrite W3, Z3, Y1, X1, W1, Z1, Y4, X4. cbn. split.
  - intros n [<-|[<-|[]]]; [exists a1|exists a2]; split; auto; apply in_or_app; auto.
  - intros n [<-|[<-|[]]]; auto.
Qed.

Lemma belt_params_names P e (t : belt T) t' : belt_params P e t = Ok (Some t') -> bt_actuators t' = bt_actuators t /\ bt_joints t' = bt_joints t.
Proof.
  unfold belt_params. destruct (deref _) as [x| | |]; cbn [bind]; try discriminate. destruct (deref _) as [y| | |]; cbn [bind]; try discriminate.
  destruct (FirstChildElement e "compensator") as [k|]; [|discriminate].
  repeat (match goal with |- context [match Attribute k ?s with Some _ => _ | None => _ end] => destruct (Attribute k s); [|discriminate] end).
  intros [= <-]. cbn. auto.
Qed.
Lemma belt_behaves P R e t : bt_actuators t = [] -> bt_joints t = [] -> behaves bt_actuators bt_joints R (fun h => belt_initXml P R e h t).
Proof.
  intros N1 N2. unfold belt_initXml. cbv zeta. destruct (match FirstChildElement e "joint" with Some jel => Attribute jel "name" | None => None end) as [jn|]; [|none].
  destruct (rv_joint R jn) eqn:J; [|none].
  destruct (match FirstChildElement e "actuator" with Some ael => Attribute ael "name" | None => None end) as [an|]; [|none].
  destruct (rv_actuator R an) as [a|] eqn:A; [|none].
  destruct (belt_params P e _) as [o| | |] eqn:B.
  - exists (Ok (o, [a])). split; [reflexivity|]. intros t' ps [= -> <-]. apply belt_params_names in B. cbn in B. rewrite N1, N2 in B. destruct B as [-> ->]. cbn. split.
    + intros n [<-|[]]. exists a. auto.
    + intros n [<-|[]]. congruence.
  - exists UB. split; [reflexivity|discriminate].
  - exists Abort. split; [reflexivity|discriminate].
  - exists Hang. split; [reflexivity|discriminate].
Qed.

Lemma enable_all_out (R : rview T) : forall ns, exists ok ps, (forall h, enable_all R ns h = (ok, enable_list ps h)) /\
  (ok = true -> forall n, In n ns -> exists a, rv_actuator R n = Some a /\ In a ps).
Proof.
  induction ns as [|n ns IH]; cbn [enable_all].
  - exists true, []. split; [reflexivity|]. intros _ n [].
  - destruct (rv_actuator R n) as [a|] eqn:A; [|exists false, []; split; [reflexivity|discriminate]].
    destruct IH as (ok & ps & H1 & H2). exists ok, (a :: ps). split; [intros h; rewrite H1; reflexivity|].
    intros E m [<-|I]; [exists a; split; auto; left; auto|]. destruct (H2 E m I) as (b & X & Y). exists b. split; auto. right; auto.
Qed.
Lemma gripper_behaves P R e t : behaves gr_actuators gr_joints R (fun h => gripper_initXml P R e h t).
Proof.
  unfold gripper_initXml. destruct (gripper_initXml1 P e t) as [t1|]; [|none].
  destruct (enable_all_out R (gr_actuators t1)) as (ok & ps & H1 & H2).
  destruct (ok && forallb (fun n => match rv_joint R n with Some _ => true | None => false end) (gr_joints t1)) eqn:C.
  - exists (Ok (Some t1, ps)). split; [intros h; rewrite H1, C; reflexivity|]. intros t' qs [= <- <-].
    apply andb_true_iff in C. destruct C as [-> C]. split; auto. intros n I. rewrite forallb_forall in C. apply known_some. auto.
  - exists (Ok (None, ps)). split; [intros h; rewrite H1, C; reflexivity|discriminate].
Qed.

Lemma behaves_wrap {A} (f : A -> transmission T) dbg P acts joints R run :
  (forall t, tr_actuators (builtin dbg P) (f t) = acts t) -> (forall t, tr_joints (builtin dbg P) (f t) = joints t) ->
  behaves acts joints R run -> behaves (tr_actuators (builtin dbg P)) (tr_joints (builtin dbg P)) R (fun h => wrapi f (run h)).
Proof.
  intros HA HJ (out & H1 & H2). exists (do (o, ps) <- out; Ok (match o with Some t => Some (f t) | None => None end, ps)).
  split.
  - intros h. rewrite H1. destruct out as [[o ps]| | |]; reflexivity.
  - intros t ps E. destruct out as [[[o|] qs]| | |]; cbn [bind] in E; try discriminate. injection E as <- <-.
    destruct (H2 _ _ eq_refl) as [X Y]. rewrite HA, HJ. auto.
Qed.

Lemma builtin_behaves dbg P R e t : is_new t ->
  behaves (tr_actuators (builtin dbg P)) (tr_joints (builtin dbg P)) R (fun h => tr_initXml (builtin dbg P) R e h t).
Proof.
  destruct t as [t|t|t|t]; cbn [is_new tr_initXml builtin].
  - intros (g1 & g2 & b & c & ->). eapply (behaves_wrap TSimple); [| |apply simple_behaves]; reflexivity.
  - intros (b & c0 & c1 & ->). eapply (behaves_wrap TWrist); [| |apply wrist_behaves]; reflexivity.
  - intros [N1 N2]. eapply (behaves_wrap TBelt); [| |apply belt_behaves; auto]; reflexivity.
  - intros _. eapply (behaves_wrap TGripper); [| |apply gripper_behaves]; reflexivity.
Qed.
End Load.

Section Loading.
Context {Tr T : Type} {N : Num T}.
Variables (K : tclass Tr T) (L : loader Tr) (R : rview T).
Hypothesis HB : forall c e t, ld_create L c = Some t -> behaves (tr_actuators K) (tr_joints K) R (fun h => tr_initXml K R e h t).

Lemma type_spec e r : transmission_type e = r ->
  match r with Ok (Some ty) => declared_type e ty | Ok None => (forall ty, ~ declared_type e ty) | UB => empty_type e | _ => False end.
Proof.
  unfold transmission_type. intros <-. destruct (Attribute e "type") as [s|] eqn:A.
  - constructor; auto.
  - destruct (FirstChildElement e "type") as [c|] eqn:F.
    + destruct (GetText c) as [s|] eqn:X; cbn [deref bind].
      * eapply type_child; eauto.
      * split; auto. exists c. auto.
    + intros ty D. inversion D; congruence.
Qed.
Lemma type_unique e ty ty' : declared_type e ty -> declared_type e ty' -> ty = ty'.
Proof. intros D D'. inversion D; inversion D'; congruence. Qed.

Lemma find_split {A} (f : A -> bool) l x : find f l = Some x -> exists pre post, l = pre ++ x :: post /\ f x = true /\ forall y, In y pre -> f y = false.
Proof.
  induction l as [|a l IH]; cbn; [discriminate|]. destruct (f a) eqn:F.
  - intros [= <-]. exists [], l. repeat split; auto. intros y [].
  - intros E. destruct (IH E) as (pre & post & -> & H1 & H2). exists (a :: pre), post. repeat split; auto. intros y [<-|I]; auto.
Qed.
Lemma resolve_spec ty : class_of L ty (resolve_type L ty).
Proof.
  unfold resolve_type. destruct (ld_available L ty) eqn:A; [constructor; auto|].
  destruct (find _ (ld_declared L)) as [c|] eqn:F.
  - apply find_split in F. destruct F as (pre & post & E & H1 & H2). apply String.eqb_eq in H1.
    apply (class_short L ty pre c post); auto. intros d I E2. specialize (H2 d I). apply String.eqb_neq in H2. congruence.
  - apply class_unknown; auto. intros d I E2. apply (find_none _ _ F) in I. apply String.eqb_neq in I. congruence.
Qed.
Lemma class_unique ty c c' : class_of L ty c -> class_of L ty c' -> c = c'.
Proof.
  intros [A|pre c0 post A E1 E2 E3|A H] [A'|pre' c1 post' A' E1' E2' E3'|A' H']; try congruence.
  - rewrite E1 in E1'. revert pre' E1' E3'. clear - E2 E3 E2'. induction pre as [|x pre IH]; intros [|y pre'] E D; cbn in E.
    + congruence.
    + injection E as -> _. exfalso. apply (D y); [left; auto|auto].
    + injection E as -> _. exfalso. apply (E3 c1); [left; auto|auto].
    + injection E as -> E. apply (IH (fun d I => E3 d (or_intror I)) pre'); auto. intros d I. apply D. right; auto.
  - exfalso. apply (H' c0); [|auto]. rewrite E1. apply in_or_app. right. left. auto.
  - exfalso. apply (H c1); [|auto]. rewrite E1'. apply in_or_app. right. left. auto.
Qed.
Lemma prefix_spec ty : String.eqb (substring 0 3 ty) "pr2" = true <-> exists rest, ty = String.append "pr2" rest.
Proof.
  rewrite String.eqb_eq. split.
  - destruct ty as [|a [|b [|c rest]]]; cbn; try discriminate.
    intros E. exists rest. assert (substring 0 0 rest = ""%string) by (destruct rest; auto). rewrite H in E. injection E as -> -> ->. reflexivity.
  - intros [rest ->]. cbn. destruct rest; reflexivity.
Qed.

(** the fate of one element *)
Definition fate (e : xml) (o : option Tr) : Prop :=
  match o with Some t => accepted K L R e t | None => forall t, ~ accepted K L R e t end.
Definition opt_list {A} (o : option A) : list A := match o with Some t => [t] | None => [] end.

Lemma fate_some e ty t0 t h h' : transmission_type e = Ok (Some ty) -> String.eqb (substring 0 3 ty) "pr2" = true ->
  ld_create L (resolve_type L ty) = Some t0 -> tr_initXml K R e h t0 = Ok (Some t, h') -> fate e (Some t).
Proof.
  intros E P C I. cbn. exists ty, (resolve_type L ty), t0, h, h'. apply type_spec in E. apply prefix_spec in P.
  repeat split; auto. apply resolve_spec.
Qed.

Lemma load_spec : forall els h done ts h', load_transmissions K L R els h done = Ok (ts, h') ->
  exists picks ps, Forall2 fate els picks /\ ts = done ++ flat_map opt_list picks /\ h' = enable_list ps h /\
    forall t, In t (flat_map opt_list picks) ->
      (forall n, In n (tr_actuators K t) -> exists a, rv_actuator R n = Some a /\ In a ps) /\ (forall n, In n (tr_joints K t) -> rv_joint R n <> None).
Proof.
  induction els as [|e els IH]; intros h done ts h' E; cbn [load_transmissions] in E.
  - injection E as <- <-. exists [], []. cbn. rewrite app_nil_r. repeat split; auto; contradiction.
  - assert (SKIP : forall ps0, (forall t, ~ accepted K L R e t) -> load_transmissions K L R els (enable_list ps0 h) done = Ok (ts, h') ->
      exists picks ps, Forall2 fate (e :: els) picks /\ ts = done ++ flat_map opt_list picks /\ h' = enable_list ps h /\
      forall t, In t (flat_map opt_list picks) ->
      (forall n, In n (tr_actuators K t) -> exists a, rv_actuator R n = Some a /\ In a ps) /\ (forall n, In n (tr_joints K t) -> rv_joint R n <> None)).
    { intros ps0 NA E2. apply IH in E2. destruct E2 as (picks & ps & F & -> & -> & Q). exists (None :: picks), (ps0 ++ ps).
      split; [constructor; auto|]. split; [reflexivity|]. split; [symmetry; apply enable_list_app|].
      cbn [flat_map opt_list app]. intros t I. destruct (Q t I) as [Q1 Q2]. split; auto. intros n J. destruct (Q1 n J) as (a & X & Y). exists a. split; auto. apply in_or_app; auto. }
    destruct (transmission_type e) as [[ty|]| | |] eqn:TT; cbn [bind] in E; try discriminate.
    2: { apply (SKIP []); auto. intros t (ty & c & t0 & hh & hh' & D & _). apply type_spec in TT. eapply TT; eauto. }
    assert (D := type_spec _ _ TT). cbn in D.
    destruct (String.eqb (substring 0 3 ty) "pr2") eqn:P; cbn [negb] in E.
    2: { apply (SKIP []); auto. intros t (ty' & c & t0 & hh & hh' & D' & X & _). rewrite (type_unique _ _ _ D' D) in X.
         apply prefix_spec in X. congruence. }
    destruct (ld_create L (resolve_type L ty)) as [t0|] eqn:C.
    2: { apply (SKIP []); auto. intros t (ty' & c & t0 & hh & hh' & D' & _ & X & Y & _). rewrite (type_unique _ _ _ D' D) in X.
         rewrite (class_unique _ _ _ X (resolve_spec ty)) in Y. congruence. }
    destruct (HB _ e _ C) as (out & H1 & H2). rewrite H1 in E.
    destruct out as [[[t|] ps0]| | |]; cbn [lift bind] in E; try discriminate.
    + apply IH in E. destruct E as (picks & ps & F & -> & -> & Q). exists (Some t :: picks), (ps0 ++ ps).
      split; [constructor; auto; eapply (fate_some e ty t0 t h); eauto; rewrite H1; reflexivity|].
      split; [cbn; rewrite <- app_assoc; reflexivity|]. split; [symmetry; apply enable_list_app|].
      intros u [<-|I].
      * destruct (H2 _ _ eq_refl) as [X Y]. split; auto. intros n J. destruct (X n J) as (a & A1 & A2). exists a. split; auto. apply in_or_app; auto.
      * destruct (Q u I) as [Q1 Q2]. split; auto. intros n J. destruct (Q1 n J) as (a & X & Y). exists a. split; auto. apply in_or_app; auto.
    + apply (SKIP ps0); auto. intros t (ty' & c & t1 & hh & hh' & D' & _ & X & Y & Z). rewrite (type_unique _ _ _ D' D) in X.
      rewrite (class_unique _ _ _ X (resolve_spec ty)) in Y. rewrite C in Y. injection Y as <-. rewrite H1 in Z. discriminate.
Qed.

Lemma load_undefined : forall pre e post h done, empty_type e ->
  (exists x, load_transmissions K L R pre h done = Ok x) -> load_transmissions K L R (pre ++ e :: post) h done = UB.
Proof.
  intros pre e post h done [E1 (c & E2 & E3)]. revert h done.
  induction pre as [|x pre IH]; intros h done [y Y].
  - cbn [load_transmissions app]. unfold transmission_type. rewrite E1, E2, E3. reflexivity.
  - cbn [load_transmissions app] in *.
    destruct (transmission_type x) as [[ty|]| | |]; cbn [bind] in *; try discriminate; eauto.
    destruct (negb _); eauto. destruct (ld_create L _); eauto.
    destruct (tr_initXml K R x h t) as [[[?|] ?]| | |]; cbn [bind] in *; try discriminate; eauto.
Qed.
End Loading.
