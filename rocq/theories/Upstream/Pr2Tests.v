(** The robot description that ships with the package (pr2_mechanism_model/pr2.urdf, see Pr2Urdf.v) on the model: what
    test_chain.cpp does with it, and that the PR2 meets the hypotheses of the theorems about robots. *)
From Coq Require Import ZArith String List Bool Ascii Lia.
From Flocq Require Import IEEE754.BinarySingleNaN.
From Verif.Model Require Import Base Num Hardware Joint Xml Transmission Simple Wrist Belt Gripper Robot Builtin.
From Verif.Spec Require Import RobotSpec.
From Verif.Proofs Require Import RobotProofs.
From Verif.Props Require Import RobotProps.
From Verif.Upstream Require Import TestBase Pr2Urdf.
Import ListNotations.
Open Scope string_scope.
Open Scope list_scope.

(** the strings of the file as doubles: [-]digits[.digits] *)
Fixpoint decimal (s : string) (dot : bool) (m k : Z) : B64 :=
  match s with
  | EmptyString => dec m k
  | String c s =>
      if Ascii.eqb c "."%char then decimal s true m k
      else decimal s dot (10 * m + (Z.of_nat (nat_of_ascii c) - 48)) (if dot then k + 1 else k)%Z
  end.
Definition parse (s : string) : B64 :=
  match s with
  | String "-"%char s => nopp (decimal s false 0 0)
  | s => decimal s false 0 0
  end.
Example parse_ex : (parse "60.1714285714" =? dec 601714285714 10)%num && (parse "-0.0001914" =? dec (-1914) 7)%num = true.
Proof. vm_compute. reflexivity. Qed.
Definition pr2_P : parsers B64 := mkParsers parse (fun s => Some (parse s)) (fun s => Some (parse s)).

Definition cal0 : calsim B64 := new_calsim nzero nzero nzero nzero false false.
Definition belt0 : belt B64 :=
  let z := nzero in mkBelt "" [] [] 0 z z z z z z z z z z z z z z z z z z z z 0 z z z z z z z false 0 cal0.
Definition pr2_L : loader (transmission B64) :=
  pr2_loader (new_gripper nzero false cal0) (new_simple nzero nzero false cal0) (new_wrist false cal0 cal0) belt0.
(** the four joints of the gripper motors, which this old file does not have yet *)
Definition motor_joints : list (ujoint B64) :=
  map (fun '(n, ty) => mkUjoint n ty None None None)
    [("r_gripper_motor_screw_joint", JCONTINUOUS); ("r_gripper_motor_slider_joint", JPRISMATIC);
     ("l_gripper_motor_screw_joint", JCONTINUOUS); ("l_gripper_motor_slider_joint", JPRISMATIC)].
Definition find_joint (n : string) : option (ujoint B64) := find (fun j => String.eqb (uj_name j) n) (pr2_joints ++ motor_joints).
Definition urdf_of (_ : xml) : option (string -> option (ujoint B64)) := Some find_joint.
Definition root_of (ts : list xml) : xml := Elem "robot" [("name", "pr2")] None ts.
Section Libm.
Context {G : Trig B64}.
Definition K (dbg : bool) : tclass (transmission B64) B64 := builtin dbg pr2_P.

(** test_chain.cpp: no actuators; initXml returns true.  Nothing is loaded, whatever the hardware: none of the type names in
    the file starts with "pr2" (robot.cpp:83). *)
Lemma skipped {Tr T} (K : tclass Tr T) L R h : forall ts done,
  forallb (fun e => match Attribute e "type" with Some ty => negb (String.eqb (substring 0 3 ty) "pr2") | None => false end) ts = true ->
  load_transmissions K L R ts h done = Ok (done, h).
Proof.
  induction ts as [|e ts IH]; intros done E; [reflexivity|]. cbn [forallb] in E. apply andb_prop in E. destruct E as (A & B).
  cbn [load_transmissions]. unfold transmission_type. destruct (Attribute e "type"); [|discriminate]. cbn [bind]. rewrite A. auto.
Qed.
Theorem pr2_as_shipped : forall dbg hw h,
  robot_initXml (K dbg) pr2_L urdf_of (root_of (pr2_transmissions "")) h (new_robot (Some hw)) =
  Ok (true, mkRobot (Some hw) find_joint [], h).
Proof.
  intros dbg hw h. unfold robot_initXml. cbn [rb_hw new_robot rb_transmissions urdf_of]. rewrite skipped; [reflexivity|vm_compute; reflexivity].
Qed.

(** The motors the file names, registered with the hardware interface *)
Definition motors (ts : list xml) : list string :=
  flat_map (fun t => flat_map (fun tag => match FirstChildElement t tag with
                                          | Some a => match Attribute a "name" with Some n => [n] | None => [] end
                                          | None => [] end) ["actuator"; "rightActuator"; "leftActuator"]) ts.
Definition pr2_hw : hwif :=
  snd (fold_left (fun '(i, h) n => (S i, fst (addActuator n i h))) (motors (pr2_transmissions "")) (0, new_hwif)).
Definition fresh_mem : mem B64 := mkMem (fun _ => new_actuator nzero) (fun _ => new_jointstate nzero).
Definition load (dbg : bool) (ts : list xml) : res (bool * robot (transmission B64) B64 * (nat -> actuator B64)) :=
  robot_initXml (K dbg) pr2_L urdf_of (root_of ts) (m_act fresh_mem) (new_robot (Some pr2_hw)).

(** ** The file with the class names as they are today, and each gripper with the simulated_actuated_joint element that
    pr2_gripper_transmission.cpp:69-74 documents. *)
Definition is_gripper (t : xml) : bool := match FirstChildElement t "gap_joint" with Some _ => true | None => false end.
Definition screw (side : string) : xml :=
  Elem "simulated_actuated_joint"
    [("name", (side ++ "_gripper_motor_screw_joint")%string); ("passive_actuated_joint", (side ++ "_gripper_motor_slider_joint")%string);
     ("simulated_reduction", "3141.6")] None [].
Definition add_screw (t : xml) : xml :=
  if is_gripper t then
    let '(Elem g a x c) := t in
    Elem g a x (c ++ [screw (match Attribute t "name" with Some n => substring 0 1 n | None => "" end)])
  else t.
Definition pr2_today : list xml := map add_screw (pr2_transmissions "pr2_mechanism_model/").

(** a sufficient test for [simulatable] *)
Definition fine (e : xml) : bool :=
  match Attribute e "type" with
  | None => false
  | Some ty =>
      existsb (String.eqb ty) pr2_classes &&
      (if String.eqb ty "pr2_mechanism_model/PR2GripperTransmission" then
         match ChildElements e "gap_joint", ChildElements e "simulated_actuated_joint" with
         | [_], [j] =>
             match Attribute j "passive_actuated_joint", Attribute j "simulated_reduction" with
             | Some _, Some r => nltb nzero (parse r)
             | _, _ => false
             end
         | _, _ => false
         end
       else Nat.leb (List.length (ChildElements e "simulated_actuated_joint")) 1)
  end.
Lemma fine_simulatable : forall e, fine e = true -> simulatable pr2_P pr2_L e.
Proof.
  intros e. unfold fine. destruct (Attribute e "type") as [ty|] eqn:A; [|discriminate]. intros F. apply andb_prop in F. destruct F as (AV & F).
  assert (DT : forall ty', declared_type e ty' -> ty' = ty).
  { intros ty' D. inversion D as [x B|x y B C]; subst; rewrite A in B; [now injection B as <-|discriminate]. }
  assert (CL : forall c, class_of pr2_L ty c -> c = ty).
  { intros c C. inversion C as [B|pre c0 post B|B]; subst; auto; cbn [ld_available pr2_L pr2_loader] in B; rewrite AV in B; discriminate. }
  split.
  - intros ty' c t D C CR. apply DT in D. subst ty'. apply CL in C. subst c. revert CR. cbn [ld_create pr2_L pr2_loader].
    destruct (String.eqb ty "pr2_mechanism_model/PR2GripperTransmission").
    + intros [= <-]. destruct (ChildElements e "gap_joint") as [|g [|? ?]]; try discriminate.
      destruct (ChildElements e "simulated_actuated_joint") as [|j [|? ?]]; try discriminate. split; reflexivity.
    + repeat (match goal with |- (if ?x then _ else _) = _ -> _ => destruct x end; [intros [= <-]; try exact Logic.I|]); try discriminate.
      apply Nat.leb_le in F. exact F.
  - intros ty' c t j D C CR IJ. apply DT in D. subst ty'. apply CL in C. subst c. revert CR. cbn [ld_create pr2_L pr2_loader].
    destruct (String.eqb ty "pr2_mechanism_model/PR2GripperTransmission").
    + intros _. destruct (ChildElements e "gap_joint") as [|g [|? ?]]; try discriminate.
      destruct (ChildElements e "simulated_actuated_joint") as [|j' [|? ?]]; try discriminate. destruct IJ as [<-|[]].
      destruct (Attribute j' "passive_actuated_joint"); try discriminate. split; [discriminate|].
      intros r x R X. rewrite R in F. cbn [p_lexical pr2_P] in X. injection X as <-. exact F.
    + repeat (match goal with |- (if ?x then _ else _) = _ -> _ => destruct x end; [intros [=]|]); try discriminate.
Qed.
Lemma pr2_new : forall c t, ld_create pr2_L c = Some t -> is_new t.
Proof.
  intros c t. unfold pr2_L, pr2_loader. cbn [ld_create].
  repeat (match goal with |- (if ?x then _ else _) = _ -> _ => destruct x end; [intros [= <-]; cbn; unfold new_gripper, new_simple, new_wrist; eauto 8|]). discriminate.
Qed.

Definition kind_of (t : transmission B64) : nat := match t with TSimple _ => 1 | TWrist _ => 2 | TBelt _ => 3 | TGripper _ => 4 end.
Definition kinds (dbg : bool) (ts : list xml) : option (bool * list nat) :=
  match load dbg ts with Ok (b, r, _) => Some (b, map kind_of (rb_transmissions r)) | _ => None end.
(** all thirty are loaded: 26 simple transmissions, the wrists and the grippers *)
Theorem pr2_loads : forall dbg, kinds dbg pr2_today = Some (true, repeat 1 21 ++ [2; 4] ++ repeat 1 5 ++ [2; 4]).
Proof. intros dbg. vm_compute. reflexivity. Qed.

Lemma kinds_inv dbg ts b k : kinds dbg ts = Some (b, k) -> exists r h, load dbg ts = Ok (b, r, h) /\ map kind_of (rb_transmissions r) = k.
Proof. unfold kinds. destruct (load dbg ts) as [[[b' r] h]| | |]; try discriminate. intros [= <- <-]. eauto. Qed.

Lemma never_crashes dbg tl r h g m ops : load dbg tl = Ok (true, r, h) -> forallb fine (ChildElements (root_of tl) "transmission") = true -> Forall fair_op ops ->
  exists s m' ts m1, new_robotstate (K dbg) dbg g r m = Ok (s, m') /\
    run_ops (K dbg) s ops (rb_transmissions r) m' = Ok (ts, m1) /\ Forall2 same_parameters (rb_transmissions r) ts.
Proof.
  unfold load. intros E A FO. destruct (C40_constructor_succeeds dbg pr2_P pr2_L pr2_new _ _ _ _ _ _ g m E) as (s & m' & NS).
  assert (SM : forall e, In e (ChildElements (root_of tl) "transmission") -> simulatable pr2_P pr2_L e).
  { intros e IN. apply fine_simulatable. rewrite forallb_forall in A. auto. }
  destruct (C66_simulation_never_crashes dbg pr2_P pr2_L pr2_new _ _ _ _ _ _ _ _ _ _ _ E SM NS FO) as (ts & m1 & R1 & R2).
  exists s, m', ts, m1. auto.
Qed.

(** The PR2 meets the hypotheses of the theorems about robots: whatever the hardware reports and the controllers write, with or
    without assertions, for any implementation of <cmath>, no sequence of forward and backward calls crashes, and no call
    changes the description. *)
Theorem pr2_never_crashes : forall dbg g m ops, Forall fair_op ops ->
  exists r h s m' ts m1,
    load dbg pr2_today = Ok (true, r, h) /\ List.length (rb_transmissions r) = 30 /\
    new_robotstate (K dbg) dbg g r m = Ok (s, m') /\
    run_ops (K dbg) s ops (rb_transmissions r) m' = Ok (ts, m1) /\ Forall2 same_parameters (rb_transmissions r) ts.
Proof.
  intros dbg g m ops FO. destruct (kinds_inv dbg pr2_today _ _ (pr2_loads dbg)) as (r & h & E & X). exists r, h.
  assert (LN : List.length (rb_transmissions r) = 30) by (rewrite <- (map_length kind_of), X; reflexivity).
  assert (A : forallb fine (ChildElements (root_of pr2_today) "transmission") = true) by (vm_compute; reflexivity).
  destruct (never_crashes dbg pr2_today r h g m ops E A FO) as (s & m' & ts & m1 & NS & R1 & R2).
  exists s, m', ts, m1. auto.
Qed.
End Libm.

(** ** The grippers exactly as the file describes them are accepted, and the first control cycle then aborts; without assertions
    it writes past the end of a vector: pr2_gripper_transmission.cpp:544-545 and 597 expect a simulated_actuated_joint. *)
#[local] Existing Instance test_trig.
Definition first_cycle (dbg : bool) (ts : list xml) : res unit :=
  match load dbg ts with
  | Ok (_, r, _) =>
      match new_robotstate (K dbg) dbg nzero r fresh_mem with
      | Ok (s, m) =>
          match propagateActuatorPositionToJointPosition (K dbg) s (rb_transmissions r) m with
          | Ok _ => Ok tt | UB => UB | Abort => Abort | Hang => Hang
          end
      | _ => Hang
      end
  | _ => Hang
  end.
Example gripper_as_shipped :
  kinds true (pr2_transmissions "pr2_mechanism_model/") = Some (true, repeat 1 21 ++ [2; 4] ++ repeat 1 5 ++ [2; 4]) /\
  first_cycle true (pr2_transmissions "pr2_mechanism_model/") = Abort /\
  first_cycle false (pr2_transmissions "pr2_mechanism_model/") = UB /\
  first_cycle true pr2_today = Ok tt.
Proof. repeat split; vm_compute; reflexivity. Qed.
