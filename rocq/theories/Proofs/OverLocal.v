(** A loop over transmissions whose calls are local. *)
From Coq Require Import List String Arith Bool ZArith Lia.
From Verif.Model Require Import Base Num Joint Hardware Xml Transmission Robot.
From Verif.Spec Require Import LocalSpec RobotSpec.
From Verif.Proofs Require Import Locality RobotProofs.
Import ListNotations.

Section Over.
Context {Tr T : Type}.
Variable f : Tr -> list nat -> list nat -> mem T -> res (Tr * mem T).

(** no pointer occurs in two of the vectors *)
Definition apart (v : list (list nat)) : Prop := forall i j l l' p, nth_error v i = Some l -> nth_error v j = Some l' -> In p l -> In p l' -> i = j.
Definition alone (v : list (list nat)) (k : nat) : Prop := forall j l l' p, nth_error v k = Some l -> nth_error v j = Some l' -> In p l -> In p l' -> j = k.

Lemma apart_tail l v : apart (l :: v) -> apart v.
Proof. intros A i j x y p X Y I J. assert (S i = S j) by (eapply A; [exact X|exact Y| |]; eauto). lia. Qed.
Lemma alone_tail l v k : alone (l :: v) (S k) -> alone v k.
Proof. intros A j x y p X Y I J. assert (S j = S k) by (eapply A; [exact X| |exact I|exact J]; exact Y). lia. Qed.
Lemma apart_alone v k : apart v -> alone v k.
Proof. intros A j x y p X Y I J. eapply A; eauto. Qed.

Lemma over_length : forall ts ins outs (m : mem T) ts' m', over_transmissions f ts ins outs m = Ok (ts', m') ->
  List.length ts' = List.length ts /\ List.length ts <= List.length ins /\ List.length ts <= List.length outs.
Proof.
  induction ts as [|t ts IH]; intros ins outs m ts' m' E; cbn [over_transmissions] in E; [injection E as <- <-; cbn; lia|].
  destruct ins as [|i ins], outs as [|o outs]; try discriminate. destruct (f t i o m) as [[t1 m1]| | |]; cbn [bind] in E; try discriminate.
  destruct (over_transmissions f ts ins outs m1) as [[r m2]| | |] eqn:O; cbn [bind] in E; try discriminate. injection E as <- <-.
  destruct (IH _ _ _ _ _ O) as (A & B & C). cbn. lia.
Qed.

Lemma over_joints_local keep (EQ : equiv keep) : (forall t i o, local (writes_joints keep o) i o (f t i o)) ->
  forall ts ins outs (m : mem T) ts' m', apart outs -> over_transmissions f ts ins outs m = Ok (ts', m') ->
  (forall p, m_act m' p = m_act m p) /\ (forall q, keep (m_js m' q) (m_js m q)) /\
  (forall q, (forall o, In o outs -> ~ In q o) -> m_js m' q = m_js m q) /\
  (forall k t i o, nth_error ts k = Some t -> nth_error ins k = Some i -> nth_error outs k = Some o ->
     exists t1 m1, f t i o m = Ok (t1, m1) /\ nth_error ts' k = Some t1 /\ forall q, In q o -> m_js m' q = m_js m1 q).
Proof.
  intros L. induction ts as [|t ts IH]; intros ins outs m ts' m' AP E; cbn [over_transmissions] in E.
  { injection E as <- <-. repeat split; auto; [intros; apply EQ|]. intros [|k] t i o A; discriminate A. }
  destruct ins as [|i ins], outs as [|o outs]; try discriminate. destruct (f t i o m) as [[t1 m1]| | |] eqn:F; cbn [bind] in E; try discriminate.
  destruct (over_transmissions f ts ins outs m1) as [[r m2]| | |] eqn:O; cbn [bind] in E; try discriminate. injection E as <- <-.
  destruct (L t i o m) as [L1 _]. destruct (L1 _ _ F) as [(W1 & W2 & W3) _]. destruct (IH _ _ _ _ _ (apart_tail _ _ AP) O) as (A & B & C & D).
  split; [intros p; rewrite A; apply W1|]. split; [intros q; eapply (proj2 EQ); eauto|]. split.
  { intros q NI. rewrite C; [apply W2; apply NI; left; auto|]. intros o' I. apply NI. right. auto. }
  intros [|k] t' i' o' X Y Z; cbn [nth_error] in X, Y, Z.
  - injection X as <-. injection Y as <-. injection Z as <-. exists t1, m1. split; [exact F|]. split; [reflexivity|].
    intros q Q. apply C. intros o' I I'. apply In_nth_error in I. destruct I as [n N]. assert (0 = S n) by (eapply AP; [reflexivity|exact N|exact Q|exact I']). lia.
  - destruct (D k t' i' o' X Y Z) as (t2 & m3 & F2 & N2 & Q2). destruct (L t' i' o' m1) as [L2 _]. destruct (L2 _ _ F2) as [_ L3].
    destruct (L3 m) as (m4 & F4 & [_ AG]).
    { split; [intros p _; symmetry; apply W1|]. intros q Q. symmetry. apply W2. intros I. assert (0 = S k) by (eapply AP; [reflexivity|exact Z|exact I|exact Q]). lia. }
    exists t2, m4. split; [exact F4|]. split; [exact N2|]. intros q Q. rewrite (AG q Q). apply Q2. exact Q.
Qed.

Lemma over_actuators_local keep (EQ : equiv keep) : (forall t i o, local (writes_actuators keep i) i o (f t i o)) ->
  forall ts ins outs (m : mem T) ts' m', over_transmissions f ts ins outs m = Ok (ts', m') ->
  (forall q, m_js m' q = m_js m q) /\ (forall p, keep (m_act m' p) (m_act m p)) /\
  (forall p, (forall k i, k < List.length ts -> nth_error ins k = Some i -> ~ In p i) -> m_act m' p = m_act m p) /\
  (forall k t i o, nth_error ts k = Some t -> nth_error ins k = Some i -> nth_error outs k = Some o -> alone ins k ->
     exists t1 m1, f t i o m = Ok (t1, m1) /\ nth_error ts' k = Some t1 /\ forall p, In p i -> m_act m' p = m_act m1 p).
Proof.
  intros L. induction ts as [|t ts IH]; intros ins outs m ts' m' E; cbn [over_transmissions] in E.
  { injection E as <- <-. repeat split; auto; [intros; apply EQ|]. intros [|k] t i o A; discriminate A. }
  destruct ins as [|i ins], outs as [|o outs]; try discriminate. destruct (f t i o m) as [[t1 m1]| | |] eqn:F; cbn [bind] in E; try discriminate.
  destruct (over_transmissions f ts ins outs m1) as [[r m2]| | |] eqn:O; cbn [bind] in E; try discriminate. injection E as <- <-.
  destruct (L t i o m) as [L1 _]. destruct (L1 _ _ F) as [(W1 & W2 & W3) _]. destruct (IH _ _ _ _ _ O) as (A & B & C & D).
  split; [intros q; rewrite A; apply W1|]. split; [intros p; eapply (proj2 EQ); eauto|]. split.
  { intros p NI. rewrite C; [apply W2; apply (NI 0 i); [cbn; lia|reflexivity]|]. intros k i' LT N. apply (NI (S k) i'); [cbn; lia|exact N]. }
  intros [|k] t' i' o' X Y Z AL; cbn [nth_error] in X, Y, Z.
  - injection X as <-. injection Y as <-. injection Z as <-. exists t1, m1. split; [exact F|]. split; [reflexivity|].
    intros p I. apply C. intros k i' _ N I'. assert (S k = 0) by (eapply AL; [reflexivity|exact N|exact I|exact I']). lia.
  - destruct (D k t' i' o' X Y Z (alone_tail _ _ _ AL)) as (t2 & m3 & F2 & N2 & Q2). destruct (L t' i' o' m1) as [L2 _]. destruct (L2 _ _ F2) as [_ L3].
    destruct (L3 m) as (m4 & F4 & [AG _]).
    { split; [|intros q _; symmetry; apply W1]. intros p I. symmetry. apply W2. intros I'. assert (0 = S k) by (eapply AL; [exact Y|reflexivity|exact I|exact I']). lia. }
    exists t2, m4. split; [exact F4|]. split; [exact N2|]. intros p I. rewrite (AG p I). apply Q2. exact I.
Qed.
End Over.
