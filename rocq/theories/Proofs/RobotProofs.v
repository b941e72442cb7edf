From Coq Require Import List String Arith Bool ZArith Lia.
From Verif.Model Require Import Base Num Joint Hardware Xml Transmission Robot.
From Verif.Spec Require Import RobotSpec.
From Verif.Proofs Require Import TransmissionProofs.
Import ListNotations.

Lemma nth_error_seq a n k : nth_error (seq a n) k = if k <? n then Some (a + k) else None.
Proof.
  revert a k; induction n as [|n IH]; intros a [|k]; cbn [seq nth_error]; auto.
  - rewrite Nat.add_0_r. reflexivity.
  - rewrite IH. change (S k <? S n) with (k <? n). destruct (k <? n); auto. f_equal. lia.
Qed.
Lemma nth_error_seq_some a n k p : nth_error (seq a n) k = Some p <-> k < n /\ p = a + k.
Proof.
  rewrite nth_error_seq. destruct (Nat.ltb_spec k n); split.
  - intros [= <-]. auto.
  - intros [_ ->]. reflexivity.
  - discriminate.
  - lia.
Qed.

Lemma Forall2_length {A B} (R : A -> B -> Prop) l l' : Forall2 R l l' -> List.length l = List.length l'.
Proof. induction 1; cbn; auto. Qed.

Section Wiring.
Context {Tr T : Type} {N : Num T}.
Variable K : tclass Tr T.

(** number of joints declared before transmission [i] *)
Definition offset (ts : list Tr) (i : nat) : nat := List.length (flat_map (tr_joints K) (firstn i ts)).

Lemma offset_0 ts : offset ts 0 = 0. Proof. reflexivity. Qed.
Lemma offset_cons t ts i : offset (t :: ts) (S i) = List.length (tr_joints K t) + offset ts i.
Proof. unfold offset. cbn [firstn flat_map]. rewrite app_length. reflexivity. Qed.
Lemma offset_S ts : forall i t, nth_error ts i = Some t -> offset ts (S i) = offset ts i + List.length (tr_joints K t).
Proof.
  induction ts as [|u ts IH]; intros [|i] t E; try discriminate.
  - injection E as ->. rewrite offset_cons, !offset_0. lia.
  - cbn in E. rewrite !offset_cons, (IH _ _ E). lia.
Qed.
Lemma offset_mono ts i j : i <= j -> offset ts i <= offset ts j.
Proof.
  revert i j; induction ts as [|u ts IH]; intros i j LE.
  - unfold offset. rewrite !firstn_nil. auto.
  - destruct i as [|i]; [rewrite offset_0; lia|]. destruct j as [|j]; [lia|]. rewrite !offset_cons. specialize (IH i j). lia.
Qed.
Lemma offset_all ts i : List.length ts <= i -> offset ts i = List.length (flat_map (tr_joints K) ts).
Proof. intros L. unfold offset. rewrite firstn_all2; auto. Qed.
Lemma offset_bound ts i t k : nth_error ts i = Some t -> k < List.length (tr_joints K t) ->
  offset ts i + k < List.length (flat_map (tr_joints K) ts).
Proof.
  intros E L. pose proof (offset_S _ _ _ E). assert (B : S i <= List.length ts) by (apply nth_error_Some; congruence).
  pose proof (offset_mono ts _ _ B) as M. rewrite (offset_all ts (List.length ts)) in M; lia.
Qed.

Lemma flat_index ts : forall p n, nth_error (flat_map (tr_joints K) ts) p = Some n <->
  exists i t k, nth_error ts i = Some t /\ nth_error (tr_joints K t) k = Some n /\ p = offset ts i + k.
Proof.
  induction ts as [|u ts IH]; intros p n; split.
  - intros E. destruct p; discriminate.
  - intros (i & t & k & E & _). destruct i; discriminate.
  - cbn [flat_map]. intros E. destruct (Nat.ltb_spec p (List.length (tr_joints K u))) as [L|L].
    + rewrite nth_error_app1 in E by auto. exists 0, u, p. auto.
    + rewrite nth_error_app2 in E by auto. apply IH in E. destruct E as (i & t & k & E1 & E2 & E3).
      exists (S i), t, k. rewrite offset_cons. repeat split; auto. lia.
  - intros (i & t & k & E1 & E2 & ->). cbn [flat_map]. destruct i as [|i].
    + injection E1 as ->. rewrite offset_0. cbn [Nat.add]. rewrite nth_error_app1; auto. apply nth_error_Some. congruence.
    + rewrite offset_cons, nth_error_app2 by lia.
      replace (List.length (tr_joints K u) + offset ts i + k - List.length (tr_joints K u)) with (offset ts i + k) by lia.
      apply IH. exists i, t, k. auto.
Qed.

Lemma flat_order ts i t k i' t' k' : nth_error ts i = Some t -> k < List.length (tr_joints K t) ->
  nth_error ts i' = Some t' -> k' < List.length (tr_joints K t') ->
  (later i k i' k' <-> offset ts i + k < offset ts i' + k').
Proof.
  intros E L E' L'. unfold later. destruct (Nat.lt_trichotomy i i') as [H|[H|H]].
  - pose proof (offset_S _ _ _ E). pose proof (offset_mono ts (S i) i' H). split; intros; lia.
  - subst i'. split; intros; lia.
  - pose proof (offset_S _ _ _ E'). pose proof (offset_mono ts (S i') i H). split; intros; lia.
Qed.

(** what the joints of consecutive declarations [names], starting at number [id], become *)
Definition wired (joints : string -> option (ujoint T)) (names : list string) (id : nat) (m m' : mem T) : Prop :=
  m_act m' = m_act m /\
  (forall k n, nth_error names k = Some n -> m_js m' (id + k) = set_js_joint (joints n) (m_js m (id + k))) /\
  (forall p, p < id \/ id + List.length names <= p -> m_js m' p = m_js m p).

Lemma wired_app joints n1 n2 id m1 m2 m3 : wired joints n1 id m1 m2 -> wired joints n2 (id + List.length n1) m2 m3 ->
  wired joints (n1 ++ n2) id m1 m3.
Proof.
  intros [A1 [B1 C1]] [A2 [B2 C2]]. split; [congruence|split].
  - intros k n E. destruct (Nat.ltb_spec k (List.length n1)) as [L|L].
    + rewrite nth_error_app1 in E by auto. rewrite C2 by lia. apply B1; auto.
    + rewrite nth_error_app2 in E by auto. specialize (B2 _ _ E).
      replace (id + List.length n1 + (k - List.length n1)) with (id + k) in B2 by lia. rewrite B2, C1 by lia. reflexivity.
  - intros p H. rewrite app_length in H. rewrite C2, C1 by lia. reflexivity.
Qed.

Lemma wire_joints_spec joints : forall names id mp m out mp' id' m',
  wire_joints joints names id mp m = (out, mp', id', m') ->
  out = seq id (List.length names) /\ mp' = rev (combine names (seq id (List.length names))) ++ mp /\
  id' = id + List.length names /\ wired joints names id m m'.
Proof.
  induction names as [|n names IH]; intros id mp m out mp' id' m' E; cbn [wire_joints] in E.
  - injection E as <- <- <- <-. repeat split; auto; try (cbn; lia). intros [|k] x X; discriminate.
  - destruct (wire_joints joints names (S id) ((n, id) :: mp) (js_upd id (set_js_joint (joints n)) m)) as [[[o mp1] id1] m1] eqn:E1.
    injection E as <- <- <- <-. apply IH in E1. destruct E1 as (-> & -> & -> & A & B & C).
    cbn [List.length seq combine rev]. rewrite <- app_assoc. cbn [app]. repeat split; auto; try lia.
    + intros [|k] x X; cbn in X.
      * injection X as ->. rewrite Nat.add_0_r, C by lia. cbn [m_js js_upd]. apply upd_same.
      * replace (id + S k) with (S id + k) by lia. rewrite (B _ _ X). f_equal. cbn [m_js js_upd]. apply upd_other. lia.
    + intros p H. rewrite C by (cbn in H; lia). cbn [m_js js_upd]. apply upd_other. cbn in H. lia.
Qed.

Lemma wire_out_spec joints : forall ts id mp m outs mp' id' m',
  wire_out K joints ts id mp m = (outs, mp', id', m') ->
  List.length outs = List.length ts /\
  (forall i t, nth_error ts i = Some t -> nth_error outs i = Some (seq (id + offset ts i) (List.length (tr_joints K t)))) /\
  List.concat outs = seq id (List.length (flat_map (tr_joints K) ts)) /\
  mp' = rev (combine (flat_map (tr_joints K) ts) (seq id (List.length (flat_map (tr_joints K) ts)))) ++ mp /\
  wired joints (flat_map (tr_joints K) ts) id m m'.
Proof.
  induction ts as [|t ts IH]; intros id mp m outs mp' id' m' E; cbn [wire_out] in E.
  - injection E as <- <- <- <-. repeat split; auto; try (intros [|i] x X; discriminate); try (cbn; lia).
  - destruct (wire_joints joints (tr_joints K t) id mp m) as [[[o mp1] id1] m1] eqn:E1.
    destruct (wire_out K joints ts id1 mp1 m1) as [[[os mp2] id2] m2] eqn:E2.
    injection E as <- <- <- <-. apply wire_joints_spec in E1. destruct E1 as (-> & -> & -> & W1).
    apply IH in E2. destruct E2 as (L & P & Q & -> & W2).
    cbn [flat_map List.length List.concat]. rewrite L, Q, app_length, seq_app. split; [auto|split;[|split;[auto|split]]].
    + intros [|i] u U; cbn in U.
      * injection U as ->. cbn [nth_error]. rewrite offset_0, Nat.add_0_r. reflexivity.
      * cbn [nth_error]. rewrite (P _ _ U), offset_cons. do 2 f_equal. lia.
    + rewrite app_assoc, <- rev_app_distr. f_equal. f_equal.
      generalize (tr_joints K t) id. intros l. induction l as [|x l IHl]; intros a; cbn [List.length seq combine app].
      * rewrite Nat.add_0_r. reflexivity.
      * f_equal. replace (a + S (List.length l)) with (S a + List.length l) by lia. apply IHl.
    + eapply wired_app; eauto.
Qed.

Lemma wire_actuators_spec dbg (r : robot Tr T) hw : rb_hw r = Some hw -> forall names ps, wire_actuators dbg r names = Ok ps ->
  Forall2 (fun n a => getActuator hw n = Some a) names ps.
Proof.
  intros HW. induction names as [|n names IH]; intros ps E; cbn [wire_actuators] in E.
  - injection E as <-. constructor.
  - unfold robot_getActuator in E. rewrite HW in E. cbn [bind] in E.
    destruct (getActuator hw n) as [a|] eqn:A.
    + cbn [bind deref] in E. unfold cassert in E. rewrite andb_false_r in E. cbn [bind] in E.
      destruct (wire_actuators dbg r names) as [qs| | |] eqn:W; cbn [bind] in E; try discriminate. injection E as <-.
      constructor; auto.
    + unfold cassert in E. destruct dbg; discriminate.
Qed.
Lemma wire_actuators_total dbg (r : robot Tr T) hw : rb_hw r = Some hw -> forall names, (forall n, In n names -> getActuator hw n <> None) ->
  exists ps, wire_actuators dbg r names = Ok ps.
Proof.
  intros HW. induction names as [|n names IH]; intros H; cbn [wire_actuators]; [eauto|].
  unfold robot_getActuator. rewrite HW. cbn [bind]. destruct (getActuator hw n) as [a|] eqn:A.
  - unfold cassert. rewrite andb_false_r. cbn [bind deref]. destruct IH as [ps ->]; [intros; apply H; right; auto|]. cbn [bind]. eauto.
  - exfalso. eapply H; [left; reflexivity|auto].
Qed.
Lemma wire_in_spec dbg (r : robot Tr T) hw : rb_hw r = Some hw -> forall ts ins, wire_in K dbg r ts = Ok ins ->
  Forall2 (fun t ps => Forall2 (fun n a => getActuator hw n = Some a) (tr_actuators K t) ps) ts ins.
Proof.
  intros HW. induction ts as [|t ts IH]; intros ins E; cbn [wire_in] in E.
  - injection E as <-. constructor.
  - destruct (wire_actuators dbg r (tr_actuators K t)) as [ps| | |] eqn:W; cbn [bind] in E; try discriminate.
    destruct (wire_in K dbg r ts) as [rest| | |] eqn:W2; cbn [bind] in E; try discriminate. injection E as <-.
    constructor; auto. eapply wire_actuators_spec; eauto.
Qed.
Lemma wire_in_total dbg (r : robot Tr T) hw : rb_hw r = Some hw -> forall ts, (forall t n, In t ts -> In n (tr_actuators K t) -> getActuator hw n <> None) ->
  exists ins, wire_in K dbg r ts = Ok ins.
Proof.
  intros HW. induction ts as [|t ts IH]; intros H; cbn [wire_in]; [eauto|].
  destruct (wire_actuators_total dbg r hw HW (tr_actuators K t)) as [ps ->]; [intros; eapply H; eauto; left; auto|].
  cbn [bind]. destruct IH as [ins ->]; [intros; eapply H; eauto; right; auto|]. cbn [bind]. eauto.
Qed.

Lemma js_size_fold ts : forall a, fold_left (fun n t => n + List.length (tr_joints K t)) ts a = a + List.length (flat_map (tr_joints K) ts).
Proof. induction ts as [|t ts IH]; intros a; cbn [fold_left flat_map List.length]; [lia|]. rewrite IH, app_length. lia. Qed.

(** everything about a constructed RobotState *)
Lemma robotstate_spec dbg g (r : robot Tr T) hw m s m' : rb_hw r = Some hw -> new_robotstate K dbg g r m = Ok (s, m') ->
  let ts := rb_transmissions r in let names := flat_map (tr_joints K) ts in
  Forall2 (fun t ps => Forall2 (fun n a => getActuator hw n = Some a) (tr_actuators K t) ps) ts (rs_in s) /\
  List.length (rs_out s) = List.length ts /\
  (forall i t, nth_error ts i = Some t -> nth_error (rs_out s) i = Some (seq (offset ts i) (List.length (tr_joints K t)))) /\
  List.concat (rs_out s) = seq 0 (List.length names) /\ rs_size s = List.length names /\
  rs_map s = rev (combine names (seq 0 (List.length names))) /\
  m_act m' = m_act m /\
  (forall p n, nth_error names p = Some n -> m_js m' p = set_js_joint (rb_joint r n) (new_jointstate g)) /\
  (forall p, rs_size s <= p -> m_js m' p = m_js m p).
Proof.
  intros HW E ts names. unfold new_robotstate in E.
  destruct (wire_in K dbg r (rb_transmissions r)) as [ins| | |] eqn:W; cbn [bind] in E; try discriminate.
  rewrite js_size_fold in E. cbn [Nat.add] in E. fold ts in E. fold names in E.
  match type of E with context [wire_out K _ ts 0 [] ?m0] => set (m1 := m0) in E;
    destruct (wire_out K (rb_joint r) ts 0 [] m1) as [[[outs mp] id'] m2] eqn:W2 end.
  injection E as <- <-. apply wire_out_spec in W2. destruct W2 as (L & P & Q & M & A & B & C). fold names in Q, M, B, C.
  cbn [rs_in rs_out rs_size rs_map]. repeat split; auto.
  - eapply wire_in_spec; eauto.
  - rewrite M, app_nil_r. reflexivity.
  - intros p n X. specialize (B _ _ X). cbn [Nat.add] in B. rewrite B. unfold m1. cbn [m_js].
    assert (p < List.length names) by (apply nth_error_Some; congruence). destruct (Nat.ltb_spec p (List.length names)); [auto|lia].
  - intros p X. rewrite C by (right; auto). unfold m1. cbn [m_js]. destruct (Nat.ltb_spec p (List.length names)); [lia|auto].
Qed.

Lemma robotstate_total dbg g (r : robot Tr T) hw m : rb_hw r = Some hw ->
  (forall t n, In t (rb_transmissions r) -> In n (tr_actuators K t) -> getActuator hw n <> None) ->
  exists s m', new_robotstate K dbg g r m = Ok (s, m').
Proof.
  intros HW H. unfold new_robotstate. destruct (wire_in_total dbg r hw HW (rb_transmissions r) H) as [ins ->]. cbn [bind].
  destruct (wire_out _ _ _ _ _ _) as [[[o mp] id'] m2]. eauto.
Qed.

(** lookup in an association list built front to back *)
Lemma lookup_spec n : forall names a mp,
  match find (fun kv => String.eqb (fst kv) n) (rev (combine names (seq a (List.length names))) ++ mp) with
  | Some (_, p) => (exists k, p = a + k /\ nth_error names k = Some n /\ forall k', nth_error names k' = Some n -> k' <= k)
                   \/ (~ In n names /\ find (fun kv => String.eqb (fst kv) n) mp = Some (n, p))
  | None => ~ In n names /\ find (fun kv => String.eqb (fst kv) n) mp = None
  end.
Proof.
  induction names as [|x names IH]; intros a mp; cbn [List.length seq combine rev app].
  - destruct (find _ mp) as [[y p]|] eqn:F; [|auto]. right. split; auto. apply find_some in F. cbn in F. destruct F as [_ F].
    apply String.eqb_eq in F. subst. auto.
  - rewrite <- app_assoc. specialize (IH (S a) ([(x, a)] ++ mp)).
    destruct (find _ _) as [[y p]|] eqn:F.
    + destruct IH as [(k & -> & K1 & K2)|[NI F2]].
      * left. exists (S k). repeat split; auto; try lia. intros [|k'] X; [lia|]. cbn in X. apply K2 in X. lia.
      * cbn [app find fst] in F2. destruct (String.eqb_spec x n) as [->|NE].
        -- injection F2 as F2. subst p. left. exists 0. repeat split; auto; try lia. intros [|k'] X; [lia|]. exfalso. apply NI. cbn in X. eapply nth_error_In; eauto.
        -- right. split; auto. intros [->|I]; auto.
    + destruct IH as [NI F2]. cbn [app find fst] in F2. destruct (String.eqb_spec x n) as [->|NE]; [discriminate|]. split; auto. intros [->|I]; auto.
Qed.
End Wiring.
