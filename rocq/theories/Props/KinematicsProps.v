(** C54-C57: chains and trees. *)
From Coq Require Import List String Arith Bool ZArith Lia Sorting.Permutation.
From Verif.Model Require Import Base Num Joint Hardware Transmission Robot Kinematics.
From Verif.Spec Require Import RobotSpec KinematicsSpec.
From Verif.Proofs Require Import RobotProofs ManagerProofs.
From Verif.Props Require Import RobotProps.
Import ListNotations.

(** ** Initialisation of a chain *)
Lemma pull_spec s segs : forall acc, exists found,
  pull_joints s segs acc = (if forallb (fun n => if getJointState s n then true else false) (moving segs) then true else false, acc ++ found) /\
  exists rest, Forall2 (fun n p => getJointState s n = Some p) (firstn (List.length found) (moving segs)) found /\
    moving segs = firstn (List.length found) (moving segs) ++ rest /\
    match rest with [] => True | n :: _ => getJointState s n = None end.
Proof.
  unfold moving. induction segs as [|g segs IH]; intros acc; cbn [pull_joints filter map].
  - exists []. cbn. rewrite app_nil_r. split; [reflexivity|]. exists []. repeat split. constructor.
  - destruct (k_moving g); [|apply IH]. cbn [map forallb].
    destruct (getJointState s (k_joint g)) as [p|] eqn:G.
    + destruct (IH (acc ++ [p])) as (found & E & rest & F & M & R). exists (p :: found). cbn [andb]. rewrite E, <- app_assoc. split; [reflexivity|].
      exists rest. cbn [List.length firstn app]. split; [constructor; auto|]. split; [f_equal; exact M|exact R].
    + exists []. cbn [andb]. rewrite app_nil_r. split; [reflexivity|]. exists (k_joint g :: map k_joint (filter k_moving segs)). cbn. repeat split; auto.
Qed.

Lemma find_all s names : forallb (fun n => if getJointState s n then true else false) names = true <-> Forall (fun n => getJointState s n <> None) names.
Proof.
  rewrite forallb_forall, Forall_forall. split; intros A n I; specialize (A n I); destruct (getJointState s n); congruence.
Qed.

(** init succeeds iff KDL finds the chain and every joint of it that can move has a joint state; then the chain consists of
    exactly those joint states, from root to tip. *)
Theorem C54_init : forall tree_ok extract s root tip old,
  let '(ok, js) := chain_init tree_ok extract s root tip old in
  (ok = true <-> tree_ok = true /\ exists segs, extract root tip = Some segs /\ Forall (fun n => getJointState s n <> None) (moving segs)) /\
  (ok = true -> forall segs, extract root tip = Some segs -> Forall2 (fun n p => getJointState s n = Some p) (moving segs) js).
Proof.
  intros tree_ok extract s root tip old. unfold chain_init. destruct tree_ok; cbn [negb].
  2:{ split; [split; [discriminate|intros [X _]; discriminate]|discriminate]. }
  destruct (extract root tip) as [segs|]; [|split; [split; [discriminate|intros (_ & sg & X & _); discriminate]|discriminate]].
  destruct (pull_spec s segs []) as (found & E & rest & F & M & R). rewrite E. cbn [app].
  destruct (forallb _ _) eqn:A.
  - apply find_all in A. split; [split; [intros _; eauto|auto]|]. intros _ sg X. injection X as <-.
    destruct rest as [|n rest]; [rewrite app_nil_r in M; rewrite M; exact F|]. exfalso.
    rewrite M in A. apply Forall_app in A. destruct A as [_ A]. inversion A. auto.
  - split; [|discriminate]. split; [discriminate|]. intros (_ & sg & X & Y). injection X as <-. apply find_all in Y. congruence.
Qed.
(** A failed init does not leave the chain as it was: once KDL has found the chain, the joints before the missing one have
    replaced the previous ones. *)
Theorem C54_failed_init : forall extract s root tip old segs n,
  extract root tip = Some segs -> Forall (fun x => getJointState s x <> None) (firstn n (moving segs)) ->
  (exists x, nth_error (moving segs) n = Some x /\ getJointState s x = None) ->
  exists js, chain_init true extract s root tip old = (false, js) /\ Forall2 (fun n p => getJointState s n = Some p) (firstn n (moving segs)) js.
Proof.
  intros extract s root tip old segs n X A (x & NX & GX). unfold chain_init. cbn [negb]. rewrite X.
  destruct (pull_spec s segs []) as (found & E & rest & F & M & R). rewrite E. cbn [app]. exists found.
  assert (FB : forallb (fun n => if getJointState s n then true else false) (moving segs) = false).
  { destruct (forallb _ _) eqn:B; [|reflexivity]. apply find_all in B. rewrite Forall_forall in B. elim (B x); auto. eapply nth_error_In; eauto. }
  rewrite FB. split; [reflexivity|]. assert (LN : List.length found = n).
  { assert (LE : List.length (firstn (List.length found) (moving segs)) = List.length found) by (eapply Forall2_length; eauto).
    assert (NL : n < List.length (moving segs)) by (apply nth_error_Some; congruence).
    destruct (lt_eq_lt_dec (List.length found) n) as [[L|L]|L]; [exfalso|exact L|exfalso].
    - destruct rest as [|y rest]; [rewrite app_nil_r in M; rewrite M, LE in NL; lia|].
      assert (NY : nth_error (moving segs) (List.length found) = Some y).
      { rewrite M, nth_error_app2 by lia. rewrite LE, Nat.sub_diag. reflexivity. }
      assert (IY : In y (firstn n (moving segs))).
      { rewrite <- (firstn_skipn n (moving segs)) in NY. rewrite nth_error_app1 in NY by (rewrite firstn_length; lia). eapply nth_error_In; eauto. }
      rewrite Forall_forall in A. elim (A y IY R).
    - assert (IX : In x (firstn (List.length found) (moving segs))).
      { rewrite <- (firstn_skipn (List.length found) (moving segs)) in NX. rewrite nth_error_app1 in NX by lia. eapply nth_error_In; eauto. }
      clear - F IX GX. induction F as [|a b l l' H F IH]; [destruct IX|]. destruct IX as [->|IX]; [congruence|auto]. }
  rewrite <- LN. exact F.
Qed.
(** In a robot state made by the constructor, different joints have different states, and the k-th entry belongs to the joint of
    that name. *)
Theorem C54_joints : forall {Tr T} {N : Num T} (K : tclass Tr T) dbg g r hw m s m' names js,
  rb_hw r = Some hw -> new_robotstate K dbg g r m = Ok (s, m') ->
  Forall2 (fun n p => getJointState s n = Some p) names js ->
  Forall2 (fun n p => p < rs_size s /\ js_joint (m_js m' p) = rb_joint r n) names js /\ (NoDup names -> NoDup js).
Proof.
  intros Tr T N K dbg g r hw m s m' names js HW E F.
  assert (INJ : forall n n' p, getJointState s n = Some p -> getJointState s n' = Some p -> n = n').
  { intros n n' p G G'. pose proof (C40_lookup K dbg g r hw m s m' n HW E) as L. pose proof (C40_lookup K dbg g r hw m s m' n' HW E) as L'.
    rewrite G in L. rewrite G' in L'. destruct L as (_ & i & k & D & P & _). destruct L' as (_ & i' & k' & D' & P' & _).
    destruct (C40_wiring K dbg g r hw m s m' HW E) as (_ & _ & _ & _ & _ & _ & _ & U & _).
    destruct (U _ _ _ _ _ P P') as [-> ->]. destruct D as (t & A & B). destruct D' as (t' & A' & B'). congruence. }
  split.
  - induction F as [|n p names js G F IH]; constructor; auto. pose proof (C40_lookup K dbg g r hw m s m' n HW E) as L. rewrite G in L.
    destruct L as (J & i & k & D & P & _). split; [|exact J].
    destruct (C40_wiring K dbg g r hw m s m' HW E) as (_ & _ & _ & _ & W & _ & _ & _ & _). destruct (W i k n D) as (p' & P' & LT & _).
    destruct P as (ps & X & Y). destruct P' as (ps' & X' & Y'). rewrite X in X'. injection X' as <-. rewrite Y in Y'. injection Y' as <-. exact LT.
  - intros ND. induction F as [|n p names js G F IH]; [constructor|]. inversion ND as [|? ? N1 N2]; subst. constructor; auto.
    intros IP. clear - F IP G N1 INJ. induction F as [|n' p' names js G' F IH]; [destruct IP|]. destruct IP as [->|IP].
    + apply N1. left. eauto.
    + apply IH; auto. intros X. apply N1. now right.
Qed.

(** ** Reading *)
Section Access.
Context {T : Type} {N : Num T}.

Lemma set_nth_app {A} (a : list A) x y b : set_nth (List.length a) y (a ++ x :: b) = a ++ y :: b.
Proof. induction a as [|z a IH]; [reflexivity|]. cbn [List.length app set_nth]. now rewrite IH. Qed.

Lemma read_spec f (m : mem T) js : forall done v, 
  read_loop f m js (List.length done) (done ++ v) =
    if List.length js <=? List.length v then Ok (done ++ map (fun p => f (m_js m p)) js ++ skipn (List.length js) v) else UB.
Proof.
  induction js as [|p js IH]; intros done v; cbn [read_loop map List.length skipn app]; [reflexivity|].
  unfold vset. rewrite app_length. destruct v as [|x v].
  - cbn [List.length]. rewrite Nat.add_0_r, (proj2 (Nat.ltb_ge _ _)) by lia. reflexivity.
  - cbn [List.length]. rewrite (proj2 (Nat.ltb_lt _ _)) by lia. cbn [bind]. rewrite set_nth_app.
    specialize (IH (done ++ [f (m_js m p)]) v). rewrite app_length in IH. cbn [List.length] in IH. rewrite Nat.add_1_r, <- app_assoc in IH. cbn [app] in IH.
    rewrite IH. cbn [Nat.leb]. destruct (List.length js <=? List.length v); [|reflexivity]. rewrite <- app_assoc. reflexivity.
Qed.

(** Reading into a std::vector always succeeds and gives the values of the joints, in order, whatever the vector held. *)
Theorem C54_read_vector : forall (m : mem T) js v,
  getPositions_vector m js v = Ok (map (fun p => position (m_js m p)) js) /\
  getVelocities_vector m js v = Ok (map (fun p => velocity (m_js m p)) js) /\
  getEfforts_vector m js v = Ok (map (fun p => measured_effort (m_js m p)) js).
Proof.
  intros m js v. assert (G : forall f, get_resized f m js v = Ok (map (fun p => f (m_js m p)) js)).
  { intros f. unfold get_resized. pose proof (read_spec f m js [] (resize nzero (List.length js) v)) as E. cbn [app List.length] in E. rewrite E.
    assert (L : List.length (resize nzero (List.length js) v) = List.length js).
    { unfold resize. rewrite app_length, firstn_length, repeat_length. lia. }
    rewrite L, Nat.leb_refl, skipn_all2, app_nil_r by lia. reflexivity. }
  repeat split; apply G.
Qed.

(** Reading into an array of the right size gives the values of the joints, in order. *)
Theorem C54_read : forall dbg (m : mem T) js v w, List.length v = List.length js -> List.length w = List.length js ->
  getPositions dbg m js v = Ok (map (fun p => position (m_js m p)) js) /\
  getVelocities dbg m js v = Ok (map (fun p => velocity (m_js m p)) js) /\
  getEfforts dbg m js v = Ok (map (fun p => measured_effort (m_js m p)) js) /\
  get_jntarrayvel dbg m js v w = Ok (map (fun p => position (m_js m p)) js, map (fun p => velocity (m_js m p)) js).
Proof.
  intros dbg m js v w L LW. assert (C : forall u : list T, List.length u = List.length js -> cassert dbg (List.length u =? List.length js) = Ok tt).
  { intros u U. unfold cassert. rewrite U, Nat.eqb_refl, andb_false_r. reflexivity. }
  assert (G : forall f, get_checked dbg f m js v = Ok (map (fun p => f (m_js m p)) js)).
  { intros f. unfold get_checked. rewrite C by exact L. cbn [bind]. pose proof (read_spec f m js [] v) as E. cbn [app List.length] in E.
    rewrite E, L, Nat.leb_refl, skipn_all2, app_nil_r by lia. reflexivity. }
  split; [apply G|]. split; [apply G|]. split; [apply G|]. unfold get_jntarrayvel. rewrite (C v L), (C w LW). cbn [bind].
  assert (R : forall js d1 d2 q qd, List.length d2 = List.length d1 -> List.length q = List.length js -> List.length qd = List.length js ->
    readvel_loop m js (List.length d1) (d1 ++ q) (d2 ++ qd) = Ok (d1 ++ map (fun p => position (m_js m p)) js, d2 ++ map (fun p => velocity (m_js m p)) js)).
  { clear. induction js as [|p js IH]; intros d1 d2 q qd LD LQ LV; cbn [readvel_loop map].
    - destruct q; [|discriminate]. destruct qd; [|discriminate]. reflexivity.
    - destruct q as [|a q]; [discriminate|]. destruct qd as [|b qd]; [discriminate|].
      unfold vset. rewrite !app_length. cbn [List.length]. rewrite (proj2 (Nat.ltb_lt _ _)) by lia. cbn [bind].
      rewrite (proj2 (Nat.ltb_lt _ _)) by lia. cbn [bind]. rewrite set_nth_app. rewrite <- LD at 2. rewrite set_nth_app.
      specialize (IH (d1 ++ [position (m_js m p)]) (d2 ++ [velocity (m_js m p)]) q qd). rewrite !app_length in IH. cbn [List.length] in IH, LQ, LV.
      rewrite !Nat.add_1_r, <- !app_assoc in IH. cbn [app] in IH. rewrite IH by lia. reflexivity. }
  exact (R js [] [] v w eq_refl L LW).
Qed.

(** With an array of another size: an assertion fails; in a build without assertions a shorter array is written out of bounds and
    of a longer one only the beginning is written. *)
Theorem C54_read_wrong_size : forall (m : mem T) js v, List.length v <> List.length js ->
  getPositions true m js v = Abort /\ getVelocities true m js v = Abort /\ getEfforts true m js v = Abort /\
  (List.length v < List.length js -> getPositions false m js v = UB /\ getVelocities false m js v = UB /\ getEfforts false m js v = UB) /\
  (List.length js < List.length v -> getPositions false m js v = Ok (map (fun p => position (m_js m p)) js ++ skipn (List.length js) v)).
Proof.
  intros m js v NE.
  assert (A : forall f, get_checked true f m js v = Abort).
  { intros f. unfold get_checked, cassert. rewrite (proj2 (Nat.eqb_neq _ _)) by exact NE. reflexivity. }
  assert (B : forall f, get_checked false f m js v = if List.length js <=? List.length v then Ok (map (fun p => f (m_js m p)) js ++ skipn (List.length js) v) else UB).
  { intros f. unfold get_checked, cassert. cbn [andb bind]. exact (read_spec f m js [] v). }
  unfold getPositions, getVelocities, getEfforts. rewrite !A, !B. repeat split; destruct (Nat.leb_spec (List.length js) (List.length v)); try reflexivity; lia.
Qed.

(** ** Writing *)
Lemma write_spec f js : NoDup js -> forall done a (m : mem T),
  List.length a = List.length js ->
  exists m', write_loop f js (List.length done) (done ++ a) m = Ok m' /\
    commanded js (fun k old => match nth_error a k with Some x => f old x | None => old end) m m'.
Proof.
  induction js as [|p js IH]; intros ND done a m L; cbn [write_loop].
  - exists m. split; [reflexivity|]. split; [reflexivity|]. split; [intros [|k] q X; discriminate|auto].
  - destruct a as [|x a]; [discriminate|]. inversion ND as [|? ? N1 N2]; subst. unfold vget.
    rewrite nth_error_app2 by lia. rewrite Nat.sub_diag. cbn [nth_error bind].
    set (m1 := js_upd p (fun j => set_commanded_effort (f (commanded_effort j) x) j) m).
    destruct (IH N2 (done ++ [x]) a m1) as (m' & E & A & B & C); [cbn [List.length] in L; lia|].
    rewrite app_length in E. cbn [List.length] in E. rewrite Nat.add_1_r, <- app_assoc in E. cbn [app] in E.
    exists m'. split; [exact E|]. split; [rewrite A; reflexivity|].
    assert (M1 : forall q, m_js m1 q = if Nat.eqb q p then set_commanded_effort (f (commanded_effort (m_js m p)) x) (m_js m p) else m_js m q).
    { intros q. unfold m1, js_upd. cbn [m_js]. unfold Transmission.upd. destruct (Nat.eqb_spec q p); [subst; reflexivity|reflexivity]. }
    split.
    + intros [|k] q X; cbn [nth_error] in X |- *.
      * injection X as <-. rewrite C by exact N1. rewrite M1, Nat.eqb_refl. reflexivity.
      * rewrite (B k q X). rewrite M1. destruct (Nat.eqb_spec q p) as [->|]; [|reflexivity]. elim N1. eapply nth_error_In; eauto.
    + intros q NI. cbn [In] in NI. rewrite C by tauto. rewrite M1. destruct (Nat.eqb_spec q p); [subst; tauto|reflexivity].
Qed.

(** Setting (adding) efforts sets (increases) exactly the commanded effort of each joint by its own element and changes nothing
    else: no other field, joint or actuator. *)
Theorem C54_set_efforts : forall dbg js a (m : mem T), NoDup js -> List.length a = List.length js ->
  exists m', setEfforts dbg js a m = Ok m' /\ commanded js (fun k old => nth k a old) m m'.
Proof.
  intros dbg js a m ND L. unfold setEfforts, cassert. rewrite L, Nat.eqb_refl, andb_false_r. cbn [negb bind andb].
  destruct (write_spec (fun _ x => x) js ND [] a m L) as (m' & E & A & B & C). cbn [List.length app] in E. exists m'. split; [exact E|].
  split; [exact A|]. split; [|exact C]. intros k p X. rewrite (B k p X). f_equal.
  destruct (nth_error a k) as [x|] eqn:NA; [symmetry; apply nth_error_nth; exact NA|apply nth_error_None in NA; rewrite nth_overflow by lia; reflexivity].
Qed.
Theorem C54_add_efforts : forall dbg js a (m : mem T), NoDup js -> List.length a = List.length js ->
  exists m', addEfforts dbg js a m = Ok m' /\ commanded js (fun k old => match nth_error a k with Some x => nadd old x | None => old end) m m'.
Proof.
  intros dbg js a m ND L. unfold addEfforts, cassert. rewrite L, Nat.eqb_refl, andb_false_r. cbn [negb bind andb].
  exact (write_spec (fun old x => nadd old x) js ND [] a m L).
Qed.
(** getEfforts reads the measured efforts: setting or adding efforts does not show in it. *)
Theorem C54_efforts_not_read_back : forall dbg js a (m m' : mem T) v, NoDup js -> List.length a = List.length js ->
  setEfforts dbg js a m = Ok m' \/ addEfforts dbg js a m = Ok m' ->
  forall js', getEfforts dbg m' js' v = getEfforts dbg m js' v /\ getPositions dbg m' js' v = getPositions dbg m js' v /\ getVelocities dbg m' js' v = getVelocities dbg m js' v.
Proof.
  intros dbg js a m m' v ND L E.
  assert (S : exists f, commanded js f m m').
  { destruct E as [E|E]; [destruct (C54_set_efforts dbg js a m ND L) as (m2 & E2 & C)|destruct (C54_add_efforts dbg js a m ND L) as (m2 & E2 & C)];
      rewrite E in E2; injection E2 as <-; eauto. }
  destruct S as (f & _ & B & C).
  assert (EQ : forall p, measured_effort (m_js m' p) = measured_effort (m_js m p) /\ position (m_js m' p) = position (m_js m p) /\ velocity (m_js m' p) = velocity (m_js m p)).
  { intros p. destruct (in_dec Nat.eq_dec p js) as [I|I]; [|rewrite (C p I); auto]. destruct (In_nth_error _ _ I) as (k & X). rewrite (B k p X). auto. }
  assert (RD : forall g, (forall p, g (m_js m' p) = g (m_js m p)) -> forall js' i w, read_loop g m' js' i w = read_loop g m js' i w).
  { intros g G. induction js' as [|p js' IH]; intros i w; [reflexivity|]. cbn [read_loop]. rewrite G. destruct (vset w i _); cbn [bind]; auto. }
  intros js'. unfold getEfforts, getPositions, getVelocities, get_checked. rewrite !RD; auto; intros p; destruct (EQ p) as (? & ? & ?); auto.
Qed.
Theorem C54_write_wrong_size : forall js a (m : mem T), List.length a <> List.length js ->
  setEfforts true js a m = Abort /\ addEfforts true js a m = Abort /\
  (List.length a < List.length js -> setEfforts false js a m = UB /\ addEfforts false js a m = UB).
Proof.
  intros js a m NE. unfold setEfforts, addEfforts, cassert. rewrite (proj2 (Nat.eqb_neq _ _)) by exact NE. cbn [andb negb bind].
  split; [reflexivity|]. split; [reflexivity|]. intros LT.
  assert (W : forall f js i m, List.length a < i + List.length js -> i <= List.length a -> write_loop f js i a m = UB).
  { clear. intros f. induction js as [|p js IH]; intros i m L LI; cbn [List.length] in L; [lia|]. cbn [write_loop]. unfold vget.
    destruct (nth_error a i) eqn:NA; [|reflexivity]. cbn [bind]. assert (i < List.length a) by (apply nth_error_Some; congruence). apply IH; lia. }
  rewrite !W by lia. auto.
Qed.

(** ** C55 *)
Theorem C55_all_calibrated : forall (m : mem T) js, allCalibrated m js = true <-> forall p, In p js -> calibrated (m_js m p) = true.
Proof.
  intros m js. induction js as [|p js IH]; cbn [allCalibrated In]; [split; [intros _ p []|auto]|]. destruct (calibrated (m_js m p)) eqn:C.
  - rewrite IH. split; [intros A q [<-|I]; auto|auto].
  - split; [discriminate|]. intros A. rewrite (A p) in C by (left; reflexivity). discriminate.
Qed.
Theorem C55_get_joint : forall js i, (i < size js <-> getJoint js i <> None) /\ forall p, getJoint js i = Some p <-> nth_error js i = Some p.
Proof.
  intros js i. unfold getJoint, size. destruct (Nat.leb_spec (List.length js) i) as [L|L].
  - split; [split; [lia|congruence]|]. intros p. rewrite (proj2 (nth_error_None js i) L). split; discriminate.
  - split; [|tauto]. rewrite nth_error_Some. tauto.
Qed.
End Access.

(** ** C56, C57: trees *)
Lemma imap_set_keys k v m x : In x (map fst (imap_set k v m)) <-> x = k \/ In x (map fst m).
Proof.
  induction m as [|[k' v'] m IH]; cbn [imap_set map fst]; [cbn; intuition|]. destruct (Nat.compare_spec k k'); cbn [map fst In] in *; subst; [| |rewrite IH]; intuition.
Qed.
Lemma sorted_ext : forall (a b : list (nat * string)), Sorted.StronglySorted lt (map fst a) -> Sorted.StronglySorted lt (map fst b) ->
  (forall x, In x a <-> In x b) -> a = b.
Proof.
  induction a as [|[k v] a IH]; intros b SA SB E.
  - destruct b as [|x b]; [reflexivity|]. elim (proj2 (E x)). now left.
  - destruct b as [|[k' v'] b]; [elim (proj1 (E (k, v))); now left|]. cbn [map fst] in SA, SB.
    inversion SA as [|? ? SA1 SA2]; subst. inversion SB as [|? ? SB1 SB2]; subst. rewrite Forall_forall in SA2, SB2.
    assert (LA : forall x, In x a -> k < fst x) by (intros x I; apply SA2, in_map, I).
    assert (LB : forall x, In x b -> k' < fst x) by (intros x I; apply SB2, in_map, I).
    assert (KV : (k, v) = (k', v')).
    { destruct (proj1 (E (k, v)) (or_introl eq_refl)) as [X|X]; [auto|]. apply LB in X. cbn in X.
      destruct (proj2 (E (k', v')) (or_introl eq_refl)) as [Y|Y]; [auto|]. apply LA in Y. cbn in Y. lia. }
    injection KV as <- <-. f_equal. apply IH; auto. intros x. split; intros I.
    + destruct (proj1 (E x) (or_intror I)) as [X|X]; [|exact X]. subst x. apply LA in I. cbn in I. lia.
    + destruct (proj2 (E x) (or_intror I)) as [X|X]; [|exact X]. subst x. apply LB in I. cbn in I. lia.
Qed.
Lemma imap_set_sorted k v m : Sorted.StronglySorted lt (map fst m) -> Sorted.StronglySorted lt (map fst (imap_set k v m)).
Proof.
  induction m as [|[k' v'] m IH]; intros SS; cbn [imap_set map fst]; [repeat constructor|]. cbn [map fst] in SS. inversion SS as [|? ? S1 S2]; subst.
  rewrite Forall_forall in S2. destruct (Nat.compare_spec k k'); cbn [map fst]; constructor; auto; apply Forall_forall; intros x I.
  - subst. auto.
  - destruct I as [<-|I]; [lia|]. apply S2 in I. lia.
  - apply imap_set_keys in I. destruct I as [->|I]; auto.
Qed.
Lemma imap_set_in k v m : Sorted.StronglySorted lt (map fst m) -> ~ In k (map fst m) -> forall x, In x (imap_set k v m) <-> x = (k, v) \/ In x m.
Proof.
  induction m as [|[k' v'] m IH]; intros SS NI x; cbn [imap_set]; [cbn; intuition|]. cbn [map fst In] in SS, NI. inversion SS as [|? ? S1 S2]; subst.
  destruct (Nat.compare_spec k k'); cbn [In]; [subst; tauto|intuition|]. rewrite IH by (auto; tauto). intuition.
Qed.
Lemma joint_map_spec segs : NoDup (map fst (numbered segs)) ->
  Sorted.StronglySorted lt (map fst (joint_map segs)) /\ forall x, In x (joint_map segs) <-> In x (numbered segs).
Proof.
  unfold joint_map. intros ND.
  assert (G : forall segs m0, Sorted.StronglySorted lt (map fst m0) -> NoDup (map fst (numbered segs)) -> (forall k, In k (map fst (numbered segs)) -> ~ In k (map fst m0)) ->
    let r := fold_left (fun m e => if k_moving (k_seg e) then imap_set (k_nr e) (k_joint (k_seg e)) m else m) segs m0 in
    Sorted.StronglySorted lt (map fst r) /\ forall x, In x r <-> In x m0 \/ In x (numbered segs)).
  { clear. induction segs as [|e segs IH]; intros m0 S0 ND DJ; cbn [fold_left].
    - split; [exact S0|]. unfold numbered. cbn. tauto.
    - unfold numbered in *. cbn [filter] in *. destruct (k_moving (k_seg e)); [|apply IH; auto]. cbn [map fst] in *. inversion ND as [|? ? N1 N2]; subst.
      destruct (IH (imap_set (k_nr e) (k_joint (k_seg e)) m0)) as (A & B); auto.
      + apply imap_set_sorted, S0.
      + intros k I. rewrite imap_set_keys. intros [->|X]; [tauto|]. apply (DJ k); [now right|exact X].
      + split; [exact A|]. intros x. rewrite B. rewrite imap_set_in; auto; [|apply DJ; now left]. cbn [In]. intuition. }
  destruct (G segs [] ltac:(constructor) ND) as (A & B); [auto|]. split; [exact A|]. intros x. rewrite B. cbn. tauto.
Qed.
Lemma tree_joints_spec s mp : forall acc, exists ok found, tree_joints s mp acc = (ok, acc ++ found) /\
  (ok = true <-> Forall (fun kn => getJointState s (snd kn) <> None) mp) /\
  (ok = true -> Forall2 (fun kn p => getJointState s (snd kn) = Some p) mp found).
Proof.
  induction mp as [|[k n] mp IH]; intros acc; cbn [tree_joints].
  - exists true, []. rewrite app_nil_r. repeat split; constructor.
  - destruct (getJointState s n) as [p|] eqn:G.
    + destruct (IH (acc ++ [p])) as (ok & found & E & A & B). exists ok, (p :: found). rewrite E, <- app_assoc. split; [reflexivity|]. split.
      * rewrite A. split; [constructor; [cbn; congruence|auto]|intros X; inversion X; auto].
      * intros X. constructor; auto.
    + exists false, []. rewrite app_nil_r. split; [reflexivity|]. split; [|discriminate]. split; [discriminate|]. intros X. inversion X. cbn in *. congruence.
Qed.

(** If KDL numbers the moving joints 0..n-1, init succeeds iff all of them have a joint state; then the tree has n joints and its
    i-th joint is the one KDL numbers i - so the arrays are indexed the way KDL indexes its JntArrays. *)
Theorem C56_init : forall segs s, well_numbered segs ->
  let '(ok, js) := tree_init (Some segs) s in
  (ok = true <-> Forall (fun kn => getJointState s (snd kn) <> None) (numbered segs)) /\
  (ok = true -> size js = List.length (numbered segs) /\
     forall i n, In (i, n) (numbered segs) -> exists p, getJointState s n = Some p /\ getJoint js i = Some p).
Proof.
  intros segs s WN. unfold tree_init.
  assert (ND : NoDup (map fst (numbered segs))) by (eapply Permutation_NoDup; [apply Permutation_sym, WN|apply seq_NoDup]).
  destruct (joint_map_spec segs ND) as (SO & IN). destruct (tree_joints_spec s (joint_map segs) []) as (ok & found & E & A & B). rewrite E. cbn [app].
  assert (PM : Permutation (joint_map segs) (numbered segs)).
  { apply NoDup_Permutation.
    - apply (NoDup_map_inv fst). clear - SO. induction SO as [|x l S IH F]; constructor; auto. intros I. rewrite Forall_forall in F. specialize (F x I). lia.
    - apply (NoDup_map_inv fst), ND.
    - exact IN. }
  split.
  - rewrite A. rewrite !Forall_forall. split; intros X x I; apply X, IN, I.
  - intros OK. specialize (B OK). pose proof (Forall2_length _ _ _ B) as LF. split; [unfold size; rewrite <- LF; apply Permutation_length, PM|].
    assert (KEYS : map fst (joint_map segs) = seq 0 (List.length (joint_map segs))).
    { assert (P2 : Permutation (map fst (joint_map segs)) (seq 0 (List.length (joint_map segs)))).
      { rewrite (Permutation_length PM). eapply Permutation_trans; [apply Permutation_map, PM|exact WN]. }
      revert SO P2. generalize (map fst (joint_map segs)) as ks. generalize (List.length (joint_map segs)) as n. clear. intros n.
      assert (G : forall n b ks, Sorted.StronglySorted lt ks -> (forall x, In x ks <-> b <= x < b + n) -> ks = seq b n).
      { clear. induction n as [|n IH]; intros b ks SS E.
        - destruct ks as [|x ks]; [reflexivity|]. exfalso. assert (b <= x < b + 0) by (apply E; now left). lia.
        - cbn [seq]. destruct ks as [|x ks]; [exfalso; assert (In b []) by (apply E; lia); auto|]. inversion SS as [|? ? S1 S2]; subst. rewrite Forall_forall in S2.
          assert (x = b). { assert (IB : In b (x :: ks)) by (apply E; lia). destruct IB as [->|IB]; [reflexivity|]. apply S2 in IB. assert (b <= x < b + S n) by (apply E; now left). lia. }
          subst x. f_equal. apply IH; auto. intros y. split; intros I.
          + pose proof (S2 y I). assert (b <= y < b + S n) by (apply E; now right). lia.
          + assert (IY : In y (b :: ks)) by (apply E; lia). destruct IY as [->|]; [lia|assumption]. }
      intros ks SS P. apply G; auto. intros x. rewrite <- in_seq. split; apply Permutation_in; [exact P|apply Permutation_sym, P]. }
    intros i n I. apply IN in I. destruct (In_nth_error _ _ I) as (j & J).
    assert (JI : j = i).
    { assert (X : nth_error (map fst (joint_map segs)) j = Some i) by (rewrite nth_error_map, J; reflexivity).
      rewrite KEYS in X. apply nth_error_seq_some in X. cbn in X. lia. }
    subst j. assert (GJ : exists p, nth_error found i = Some p /\ getJointState s (snd (i, n)) = Some p).
    { revert J. generalize (i, n) as kn. clear - B. intros kn J. revert i J. induction B as [|x p l l' G B IH]; intros [|i] J; try discriminate; cbn [nth_error] in J |- *.
      - injection J as ->. exists p. auto.
      - apply IH. exact J. }
    destruct GJ as (p & P1 & P2). exists p. split; [exact P2|]. apply C55_get_joint. exact P1.
Qed.

(** If the KDL tree cannot be constructed, init still reports success; the tree then has no joint: the accessors that check the
    size abort on any other than an empty array, and allCalibrated is true. *)
Theorem C57_success_without_tree : forall s, tree_init None s = (true, []) /\ size [] = 0 /\
  (forall {T} {N : Num T} (m : mem T), allCalibrated m [] = true) /\
  (forall {T} {N : Num T} (m : mem T) a v, getPositions true m [] (a :: v) = Abort /\ setEfforts true [] (a :: v) m = Abort) /\
  (forall {T} {N : Num T} (m : mem T) a, setEfforts false [] a m = Ok m /\ addEfforts false [] a m = Ok m).
Proof. intros s. repeat split. Qed.

(** ** Concrete cases: the robot state of C40_ex *)
Local Open Scope string_scope.
Definition exk_state : rstate := mkRstate 2 [[0]; [1]] [[0]; [1]] [("j1", 1); ("j0", 0)].
Example C54_ex :
  chain_init true (fun _ _ => Some [mkKseg "mount" false; mkKseg "j1" true; mkKseg "j0" true]) exk_state "base" "tip" [7] = (true, [1; 0]) /\
  chain_init true (fun _ _ => Some [mkKseg "j1" true; mkKseg "j9" true; mkKseg "j0" true]) exk_state "base" "tip" [7] = (false, [1]) /\
  chain_init true (fun _ _ => None) exk_state "base" "tip" [7] = (false, [7]) /\ NoDup [1; 0].
Proof. repeat split. repeat constructor; cbn; intuition discriminate. Qed.
Definition exk_tree : list kelem :=
  [mkKelem (mkKseg "j1" true) 1; mkKelem (mkKseg "mount" false) 0; mkKelem (mkKseg "j0" true) 0].
Example C56_ex : well_numbered exk_tree /\ tree_init (Some exk_tree) exk_state = (true, [0; 1]).
Proof. split; [|reflexivity]. unfold well_numbered. cbn. apply perm_swap. Qed.
