(** What an accepted gripper description contains. *)
From Coq Require Import List String Arith Bool ZArith Lia.
From Verif.Model Require Import Base Num Joint Hardware Xml Transmission Gripper.
From Verif.Spec Require Import GripperSpec.
Import ListNotations.
Local Open Scope string_scope.
Local Open Scope list_scope.

Lemma each_inv {S} (f : xml -> S -> option S) (P : list xml -> S -> Prop) : forall els t t',
  (forall done j s s', P done s -> f j s = Some s' -> P (done ++ [j]) s') ->
  forall done, P done t -> each f els t = Some t' -> P (done ++ els) t'.
Proof.
  induction els as [|j els IH]; intros t t' HS done HP E; cbn [each] in E.
  - injection E as <-. rewrite app_nil_r. exact HP.
  - destruct (f j t) as [s|] eqn:F; [|discriminate].
    replace (done ++ j :: els) with ((done ++ [j]) ++ els) by (rewrite <- app_assoc; reflexivity).
    eapply IH; eauto.
Qed.

Lemma gripper_count {T} {N : Num T} {G : Trig T} : forall (P : parsers T) R0 elt h g b c t h',
  gripper_initXml P R0 elt h (new_gripper g b c) = Ok (Some t, h') ->
  List.length (gr_passive t) = List.length (ChildElements elt "passive_joint") /\
  List.length (gr_joints t) = (List.length (ChildElements elt "gap_joint") + List.length (ChildElements elt "passive_joint")
                               + declared_simulated (ChildElements elt "simulated_actuated_joint"))%nat /\
  gr_has_passive t = existsb names_passive_actuated (ChildElements elt "simulated_actuated_joint").
Proof.
  intros P R0 elt h g b c t h' H. unfold gripper_initXml in H.
  destruct (gripper_initXml1 P elt (new_gripper g b c)) as [t1|] eqn:E1; [|discriminate].
  assert (t1 = t). { destruct (enable_all R0 (gr_actuators t1) h) as [ok h1]. match type of H with (if ?c then _ else _) = _ => destruct c end; [|discriminate]. injection H as -> _. reflexivity. }
  subst t1. clear H. unfold gripper_initXml1 in E1. destruct (match FirstChildElement elt "actuator" with Some _ => _ | None => _ end) as [an|]; [|discriminate].
  match type of E1 with context [each (gripper_gap P) ?l ?s] => set (s0 := s) in E1; destruct (each (gripper_gap P) l s0) as [t2|] eqn:E2; [|discriminate] end.
  destruct (each gripper_passive _ t2) as [t3|] eqn:E3; [|discriminate].
  assert (A2 : List.length (gr_joints t2) = List.length (ChildElements elt "gap_joint") /\ gr_passive t2 = [] /\ gr_has_passive t2 = false).
  { apply (each_inv (gripper_gap P) (fun d s => List.length (gr_joints s) = List.length d /\ gr_passive s = [] /\ gr_has_passive s = false) _ _ _) with (done := []) in E2;
      [exact E2| |repeat split]. intros d j s s' [H1 [H2 H3]] F. unfold gripper_gap in F.
    repeat (match type of F with (match ?x with Some _ => _ | None => _ end = _) => destruct x; [|discriminate] end).
    injection F as <-. cbn. rewrite !app_length. simpl. rewrite H1. auto. }
  assert (A3 : List.length (gr_joints t3) = (List.length (ChildElements elt "gap_joint") + List.length (ChildElements elt "passive_joint"))%nat
     /\ List.length (gr_passive t3) = List.length (ChildElements elt "passive_joint") /\ gr_has_passive t3 = false).
  { destruct A2 as [B1 [B2 B3]].
    apply (each_inv gripper_passive (fun d s => List.length (gr_joints s) = (List.length (ChildElements elt "gap_joint") + List.length d)%nat /\
       List.length (gr_passive s) = List.length d /\ gr_has_passive s = false) _ _ _) with (done := []) in E3;
      [exact E3| |rewrite B2; simpl; repeat split; auto; lia]. intros d j s s' [H1 [H2 H3]] F. unfold gripper_passive in F.
    destruct (Attribute j "name"); [|discriminate]. injection F as <-. cbn. rewrite !app_length. simpl. rewrite H1, H2. repeat split; auto; lia. }
  destruct A3 as [B1 [B2 B3]].
  apply (each_inv (gripper_simulated P) (fun d s => List.length (gr_passive s) = List.length (ChildElements elt "passive_joint") /\
      List.length (gr_joints s) = (List.length (ChildElements elt "gap_joint") + List.length (ChildElements elt "passive_joint") + declared_simulated d)%nat /\
      gr_has_passive s = existsb names_passive_actuated d) _ _ _) with (done := []) in E1;
    [exact E1| |unfold declared_simulated; simpl; repeat split; auto; lia].
  intros d j s s' [H1 [H2 H3]] F. unfold gripper_simulated in F.
  destruct (Attribute j "name"); [|discriminate]. destruct (Attribute j "simulated_reduction") as [sr|]; [|discriminate]. destruct (p_lexical P sr); [|discriminate].
  unfold declared_simulated in *. rewrite filter_app, existsb_app, !app_length. cbn [filter existsb List.length].
  assert (NPA : names_passive_actuated j = match Attribute j "passive_actuated_joint" with Some _ => true | None => false end) by reflexivity. rewrite NPA. clear NPA.
  destruct (Attribute j "passive_actuated_joint"); injection F as <-; cbn; rewrite !app_length; simpl; rewrite H1, H2, ?H3, ?orb_true_r, ?orb_false_r; repeat split; auto; lia.
Qed.

