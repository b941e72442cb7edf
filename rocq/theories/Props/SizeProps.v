(** C99: built-in transmissions refuse actuator and joint vectors of the wrong size. *)
From Coq Require Import List String Arith Bool ZArith Lia Reals.
From Flocq Require Import IEEE754.BinarySingleNaN.
From Verif.Model Require Import Base Num Joint Hardware Transmission Simple Wrist Belt Gripper Robot Builtin.
Import ListNotations.
Local Open Scope nat_scope.

(** ** Specification: the sizes each kind of transmission works on (independent of the model's assertions) *)
Inductive direction := Position | PositionBackwards | Effort | EffortBackwards.

Definition actuators_wanted {T} (t : transmission T) : nat := match t with TWrist _ => 2 | _ => 1 end.

Definition joints_wanted {T} (d : direction) (t : transmission T) : nat :=
  match t with
  | TSimple t => if st_use_sim t then 2 else 1
  | TWrist _ => 2
  | TBelt _ => 1
  | TGripper t =>
      let passive := List.length (gr_passive t) in
      match d, gr_has_passive t with
      | EffortBackwards, _ | _, true => 3 + passive          (* gap, passive joints, screw, slider *)
      | PositionBackwards, false => 1                        (* the gap joint alone *)
      | _, false => 2 + passive                              (* gap, passive joints, screw *)
      end
  end.

Definition fits {T} (d : direction) (t : transmission T) (actuators joints : list nat) : Prop :=
  List.length actuators = actuators_wanted t /\ List.length joints = joints_wanted d t.

(** the four calls of the plugin interface, whichever order they take their vectors in *)
Definition call {T} {N : Num T} {G : Trig T} (dbg : bool) (P : parsers T) (e : env) (d : direction) (t : transmission T)
    (actuators joints : list nat) (m : mem T) : res (transmission T * mem T) :=
  match d with
  | Position => tr_position (builtin dbg P) t actuators joints m
  | PositionBackwards => tr_positionBackwards (builtin dbg P) e t joints actuators m
  | Effort => tr_effort (builtin dbg P) t joints actuators m
  | EffortBackwards => tr_effortBackwards (builtin dbg P) t actuators joints m
  end.

Section Sizes.
Context {T} {N : Num T} {G : Trig T} (P : parsers T) (e : env).

Lemma cassert_no b : b = false -> cassert true b = Abort.
Proof. intros ->. reflexivity. Qed.
Lemma cassert_true b : b = true -> cassert true b = Ok tt.
Proof. intros ->. reflexivity. Qed.

Lemma simple_sizes_no t as_ js : ~ fits Position (TSimple t) as_ js -> simple_sizes (T := T) true t as_ js = Abort.
Proof.
  unfold fits, simple_sizes. cbn. intros F. destruct (Nat.eqb_spec (List.length as_) 1) as [A|A]; [|reflexivity]. cbn [cassert andb negb bind].
  apply cassert_no, Nat.eqb_neq. intros B. apply F. split; assumption.
Qed.
Lemma wrist_sizes_no as_ js : ~ (List.length as_ = 2 /\ List.length js = 2) -> wrist_sizes true as_ js = Abort.
Proof.
  unfold wrist_sizes. intros F. destruct (Nat.eqb_spec (List.length as_) 2) as [A|A]; [|reflexivity]. cbn [cassert andb negb bind].
  apply cassert_no, Nat.eqb_neq. intros B. apply F. split; assumption.
Qed.
Lemma belt_sizes_no as_ js : ~ (List.length as_ = 1 /\ List.length js = 1) -> belt_sizes true as_ js = Abort.
Proof.
  unfold belt_sizes. intros F. destruct (Nat.eqb_spec (List.length as_) 1) as [A|A]; [|reflexivity]. cbn [cassert andb negb bind].
  apply cassert_no, Nat.eqb_neq. intros B. apply F. split; assumption.
Qed.

(** In a build with assertions every call, in every state, with a vector of the wrong size stops at the call itself:
    no joint or actuator is read or written. *)
Theorem C99_wrong_size_refused : forall d t actuators joints m,
  ~ fits d t actuators joints -> call true P e d t actuators joints m = Abort.
Proof.
  intros d t as_ js m F. destruct t as [t|t|t|t].
  - assert (Z : simple_sizes true t as_ js = Abort) by (apply simple_sizes_no; exact F).
    destruct d; cbn; unfold simple_propagatePosition, simple_propagatePositionBackwards, simple_propagateEffort, simple_propagateEffortBackwards;
      rewrite Z; reflexivity.
  - assert (Z : wrist_sizes true as_ js = Abort) by (apply wrist_sizes_no; exact F).
    destruct d; cbn; unfold wrist_propagatePosition, wrist_propagatePositionBackwards, wrist_propagateEffort, wrist_propagateEffortBackwards;
      rewrite Z; reflexivity.
  - assert (Z : belt_sizes true as_ js = Abort) by (apply belt_sizes_no; exact F).
    destruct d; cbn; unfold belt_propagatePosition, belt_propagatePositionBackwards, belt_propagateEffort, belt_propagateEffortBackwards;
      rewrite Z; reflexivity.
  - unfold fits in F. cbn in F.
    destruct (Nat.eq_dec (List.length as_) 1) as [A|A].
    + assert (B : List.length js <> joints_wanted d (TGripper t)) by (intros B; apply F; split; assumption). clear F. cbn in B.
      destruct d; cbn;
        unfold gripper_propagatePosition, gripper_propagatePositionBackwards, gripper_propagateEffort, gripper_propagateEffortBackwards;
        rewrite A, Nat.eqb_refl; cbn [cassert andb negb bind];
        rewrite cassert_no; try reflexivity;
        unfold gripper_size_fwd, gripper_size_posback, gripper_size_effback; destruct (gr_has_passive t); apply Nat.eqb_neq; cbn in *; lia.
    + destruct d; cbn;
        unfold gripper_propagatePosition, gripper_propagatePositionBackwards, gripper_propagateEffort, gripper_propagateEffortBackwards;
        rewrite (cassert_no (List.length as_ =? 1)) by (apply Nat.eqb_neq; exact A); reflexivity.
Qed.

Lemma simple_sizes_yes dbg t as_ js : fits Position (TSimple t) as_ js -> simple_sizes (T := T) dbg t as_ js = Ok tt.
Proof. intros [A B]. cbn in A, B. unfold simple_sizes. rewrite A, B, !Nat.eqb_refl. destruct dbg; reflexivity. Qed.

Lemma vget_not_abort {A} (v : list A) i : vget v i <> Abort.
Proof. unfold vget. destruct (nth_error v i); intros E; inversion E. Qed.

Lemma passive_not_abort n : forall i pos vel eff js (m : mem T), passive_loop n i pos vel eff js m <> Abort.
Proof.
  induction n as [|n IH]; intros; cbn; [intros E; inversion E|].
  destruct (vget js i) eqn:V; cbn [bind]; try (intros E; inversion E; fail); [apply IH | exfalso; exact (vget_not_abort _ _ V)].
Qed.

Lemma cassert_ok (b dbg : bool) : b = true -> cassert dbg b = Ok tt.
Proof. intros ->. destruct dbg; reflexivity. Qed.

(** With the right sizes no call is refused: reading a state and writing a command always go through, and so does the
    backward effort call, whose one further assertion is the gripper's positive simulated reduction. *)
Theorem C99_right_size_accepted : forall dbg d t actuators joints m,
  fits d t actuators joints -> d <> PositionBackwards ->
  (d = EffortBackwards -> forall g, t = TGripper g -> nltb nzero (gr_sim_red g) = true) ->
  call dbg P e d t actuators joints m <> Abort.
Proof.
  intros dbg d t as_ js m F ND SR. pose proof F as [A B]. unfold call.
  destruct t as [t|t|t|t]; cbn in A.
  - pose proof (simple_sizes_yes dbg t as_ js F) as Z.
    destruct d; [| exfalso; apply ND; reflexivity | |]; cbn; unfold keep, simple_propagatePosition, simple_propagateEffort, simple_propagateEffortBackwards; rewrite Z; cbn [bind];
      intros E; destruct (vget as_ 0) as [a0| | |] eqn:V0; cbn [bind] in E; try (now inversion E); try (exact (vget_not_abort _ _ V0));
      destruct (vget js 0) as [j0| | |] eqn:V1; cbn [bind] in E; try (now inversion E); try (exact (vget_not_abort _ _ V1));
      destruct (st_use_sim t); cbn [bind] in E; try (now inversion E);
      destruct (vget js 1) as [j1| | |] eqn:V2; cbn [bind] in E; try (now inversion E); try (exact (vget_not_abort _ _ V2)).
  - assert (Z : wrist_sizes dbg as_ js = Ok tt).
    { cbn in B. unfold wrist_sizes. rewrite A, B, Nat.eqb_refl. destruct dbg; reflexivity. }
    destruct d; [| exfalso; apply ND; reflexivity | |]; cbn; unfold keep, wrist_propagatePosition, wrist_propagateEffort, wrist_propagateEffortBackwards; rewrite Z; cbn [bind];
      repeat match goal with |- context [vget ?v ?i] => let V := fresh in destruct (vget v i) eqn:V; cbn [bind];
        [ | intros Q; now inversion Q | exfalso; exact (vget_not_abort _ _ V) | intros Q; now inversion Q ] end; intros Q; now inversion Q.
  - assert (Z : belt_sizes dbg as_ js = Ok tt).
    { cbn in B. unfold belt_sizes. rewrite A, B, Nat.eqb_refl. destruct dbg; reflexivity. }
    destruct d; [| exfalso; apply ND; reflexivity | |]; cbn; unfold wrap, keep, belt_propagatePosition, belt_propagateEffort, belt_propagateEffortBackwards; rewrite Z; cbn [bind];
      repeat match goal with |- context [vget ?v ?i] => let V := fresh in destruct (vget v i) eqn:V; cbn [bind];
        [ | intros Q; now inversion Q | exfalso; exact (vget_not_abort _ _ V) | intros Q; now inversion Q ] end;
      try destruct (belt_jnt1 _ _ _ _ _ _) as [[? ?] ?]; try destruct (belt_defl _ _ _ _ _ _ _) as [[? ?] ?];
      try destruct (belt_combine _ _ _ _ _ _ _) as [? ?]; intros Q; now inversion Q.
  - cbn in B. destruct d; [| exfalso; apply ND; reflexivity | |]; cbn;
      unfold keep, gripper_propagatePosition, gripper_propagateEffort, gripper_propagateEffortBackwards;
      rewrite (cassert_ok (List.length as_ =? 1)) by (apply Nat.eqb_eq; exact A); cbn [bind];
      rewrite (cassert_ok _ dbg) by (unfold gripper_size_fwd, gripper_size_effback; destruct (gr_has_passive t); apply Nat.eqb_eq; lia); cbn [bind].
    + destruct (vget as_ 0) as [a0| | |] eqn:V0; cbn [bind]; try (intros Q; now inversion Q); [|exfalso; exact (vget_not_abort _ _ V0)].
      destruct (vget js 0) as [j0| | |] eqn:V1; cbn [bind]; try (intros Q; now inversion Q); [|exfalso; exact (vget_not_abort _ _ V1)].
      match goal with |- context [passive_loop ?a ?b ?c ?d ?f ?g ?h] => destruct (passive_loop a b c d f g h) as [m1| | |] eqn:V2 end;
        cbn [bind]; try (intros Q; now inversion Q); [|exfalso; exact (passive_not_abort _ _ _ _ _ _ _ V2)].
      destruct (vget js (_ + 1)) as [k| | |] eqn:V3; cbn [bind]; try (intros Q; now inversion Q); [|exfalso; exact (vget_not_abort _ _ V3)].
      destruct (gr_has_passive t); [|intros Q; now inversion Q].
      destruct (vget js (_ + 2)) as [k2| | |] eqn:V4; cbn [bind]; try (intros Q; now inversion Q). exfalso; exact (vget_not_abort _ _ V4).
    + destruct (vget js 0) as [j0| | |] eqn:V1; cbn [bind]; try (intros Q; now inversion Q); [|exfalso; exact (vget_not_abort _ _ V1)].
      destruct (vget as_ 0) as [a0| | |] eqn:V0; cbn [bind]; try (intros Q; now inversion Q); [|exfalso; exact (vget_not_abort _ _ V0)].
      destruct (inverseGapStates t _) as [[[? ?] ?] ?]; cbn [bind]. intros Q; now inversion Q.
    + rewrite (cassert_ok _ dbg) by (exact (SR eq_refl t eq_refl)); cbn [bind].
      destruct (vget as_ 0) as [a0| | |] eqn:V0; cbn [bind]; try (intros Q; now inversion Q); [|exfalso; exact (vget_not_abort _ _ V0)].
      destruct (vget js (_ + 1)) as [k| | |] eqn:V3; cbn [bind]; try (intros Q; now inversion Q). exfalso; exact (vget_not_abort _ _ V3).
Qed.

(** A gripper whose description gives no simulated slider joint cannot be simulated in a build with assertions: whatever
    the joint vector, at most one of reading the state forwards and each backward call accepts it. *)
Theorem C99_gripper_without_slider : forall g actuators joints m d, gr_has_passive g = false ->
  d = PositionBackwards \/ d = EffortBackwards ->
  call true P e Position (TGripper g) actuators joints m = Abort \/ call true P e d (TGripper g) actuators joints m = Abort.
Proof.
  intros g as_ js m d NP D. destruct (Nat.eq_dec (List.length js) (2 + List.length (gr_passive g))) as [L|L].
  - right. apply C99_wrong_size_refused. intros [_ B]. cbn in B. rewrite NP in B. destruct D as [-> | ->]; cbn in B; lia.
  - left. apply C99_wrong_size_refused. intros [_ B]. cbn in B. rewrite NP in B. apply L. exact B.
Qed.

End Sizes.

(** ** Non-vacuity: one joint too many, one actuator too few, and the right sizes *)
Section Ex.
Context {T} {N : Num T} {G : Trig T} (P : parsers T) (e : env) (m : mem T).

Theorem C99_ex : forall (st : simple T) (wt : wrist T) (bt : belt T), st_use_sim st = false ->
  fits Position (TSimple st) [0] [3] /\ call true P e Position (TSimple st) [0] [3] m <> Abort /\
  call true P e Position (TSimple st) [0] [3; 4] m = Abort /\
  call true P e Effort (TWrist wt) [0] [3; 4] m = Abort /\
  fits Effort (TWrist wt) [0; 1] [3; 4] /\
  call true P e EffortBackwards (TBelt bt) [0; 1] [3] m = Abort.
Proof.
  intros st wt bt S. assert (F : fits Position (TSimple st) [0] [3]) by (split; cbn; rewrite ?S; reflexivity).
  split; [exact F|]. split; [apply C99_right_size_accepted; auto; intros Q; inversion Q|].
  split; [apply C99_wrong_size_refused; intros [_ Q]; cbn in Q; rewrite S in Q; inversion Q|].
  split; [apply C99_wrong_size_refused; intros [Q _]; cbn in Q; inversion Q|].
  split; [split; reflexivity|].
  apply C99_wrong_size_refused; intros [Q _]; cbn in Q; inversion Q.
Qed.
End Ex.
