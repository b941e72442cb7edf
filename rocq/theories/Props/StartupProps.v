(** C82: when the controller manager starts, and with what. *)
From Coq Require Import List String Arith Bool ZArith Lia Reals.
From Verif.Model Require Import Base Num Joint Hardware Xml Transmission Simple Wrist Belt Gripper Scheduler Controller Manager Robot Builtin System.
From Verif.Spec Require Import RobotSpec SystemSpec HaltSpec.
From Verif.Proofs Require Import RobotProofs.
From Verif.Props Require Import RobotProps SystemProps HaltProps.
Import ListNotations.

Lemma check_types_spec {T} (m : mem T) : forall ids, (forall i, In i ids -> js_joint (m_js m i) <> None) ->
  exists b, check_types m ids = Ok b /\ (b = true <-> forall i, In i ids -> exists u, js_joint (m_js m i) = Some u /\ movable u).
Proof.
  induction ids as [|i ids IH]; intros D; cbn [check_types].
  - exists true. split; [reflexivity|]. split; [intros _ i []|reflexivity].
  - destruct (js_joint (m_js m i)) as [u|] eqn:J; [|exfalso; apply (D i); [left; reflexivity|exact J]].
    destruct (is_published (uj_type u)) eqn:U.
    + destruct IH as (b & E & B); [intros k I; apply D; right; exact I|]. exists b. split; [exact E|]. rewrite B. split.
      * intros A k [<-|I]; [|auto]. exists u. split; [exact J|]. unfold movable. unfold is_published in U.
        destruct (uj_type u); cbn in U; try discriminate U; tauto.
      * intros A k I. apply A. right. exact I.
    + exists false. split; [reflexivity|]. split; [discriminate|]. intros A. destruct (A i ltac:(left; reflexivity)) as (u' & J' & M).
      rewrite J in J'. injection J' as <-. unfold movable in M. unfold is_published in U.
      destruct M as [M|[M|M]]; rewrite M in U; discriminate U.
Qed.

Section C82.
Context {T : Type} {N : Num T} {G : Trig T}.
Variables (dbg : bool) (P : parsers T) (L : loader (transmission T)).
Hypothesis HL : forall c t, ld_create L c = Some t -> is_new t.
Notation K := (builtin dbg P).

(** Starting up succeeds exactly if the description parses and every joint a loaded transmission drives is revolute,
    continuous or prismatic. *)
Theorem C82_starts_exactly : forall urdf config (g : T) hw mem0 b r h,
  robot_initXml K L urdf config (m_act mem0) (new_robot (Some hw)) = Ok (b, r, h) ->
  exists result, cm_initXml K dbg L urdf config g hw mem0 = Ok result /\
    (result <> None <-> urdf config <> None /\ forall i k n, declares_joint K r i k n -> exists u, rb_joint r n = Some u /\ movable u) /\
    forall s p0, result = Some (s, p0) ->
      (** the plant: the loaded transmissions, the actuators as initialising them left them, all messages of the right size *)
      pl_ts p0 = rb_transmissions r /\ (forall a, m_act (pl_mem p0) a = h a) /\ pl_hw p0 = actuators hw /\
      List.length (pl_jstats p0) = rs_size s /\ List.length (pl_astats p0) = List.length (actuators hw) /\
      List.length (jm_name (pl_js p0)) = rs_size s /\ List.length (jm_position (pl_js p0)) = rs_size s /\
      List.length (jm_velocity (pl_js p0)) = rs_size s /\ List.length (jm_effort (pl_js p0)) = rs_size s /\
      (** ... and one fresh joint state for every joint a transmission drives, and no other *)
      (forall i k n, declares_joint K r i k n -> exists q, pointer_at (rs_out s) i k q /\ q < rs_size s /\
         m_js (pl_mem p0) q = set_js_joint (rb_joint r n) (new_jointstate g)) /\
      (forall q, q < rs_size s -> exists i k n, pointer_at (rs_out s) i k q /\ declares_joint K r i k n).
Proof.
  intros urdf config g hw mem0 b r h E. unfold cm_initXml. rewrite E. cbn [bind].
  destruct (C41_loaded_in_document_order dbg P L HL _ _ _ _ _ _ _ E) as (B & _ & Y). cbn [rb_hw new_robot] in B, Y.
  destruct b; cbn [negb].
  2:{ exists None. split; [reflexivity|]. split; [|discriminate]. split; [congruence|]. intros [U _]. assert (false = true) by (apply B; split; [discriminate|exact U]). discriminate. }
  assert (U : urdf config <> None) by (apply B; reflexivity).
  assert (HW : rb_hw r = Some hw). { destruct (urdf config) as [j|] eqn:UR; [|congruence]. destruct (Y hw j eq_refl eq_refl) as [Z _]. exact Z. }
  destruct (C40_constructor_succeeds dbg P L HL _ _ _ _ _ _ g (mkMem h (m_js mem0)) E) as (s & m1 & NR). rewrite NR. cbn [bind].
  destruct (C40_wiring K dbg g r hw _ s m1 HW NR) as (_ & _ & _ & _ & DJ & PJ & ALL & _ & MA). cbn [m_act] in MA.
  destruct (C41_loaded_names_known_and_enabled dbg P L HL _ _ _ _ _ _ E) as (_ & KN & _).
  assert (DEC : forall i k n, declares_joint K r i k n -> rb_joint r n <> None).
  { intros i k n (t & X & Z). apply (KN t n); [eapply nth_error_In; eauto|eapply nth_error_In; eauto]. }
  assert (ALL' : forall q, q < rs_size s -> exists i k n, pointer_at (rs_out s) i k q /\ declares_joint K r i k n).
  { intros q LT. destruct (ALL q LT) as (i & k & PT). destruct (PJ i k q PT) as (n & D). eauto. }
  assert (JOINT : forall q, q < rs_size s -> exists i k n, declares_joint K r i k n /\ js_joint (m_js m1 q) = rb_joint r n).
  { intros q LT. destruct (ALL' q LT) as (i & k & n & (ps & X1 & X2) & D). destruct (DJ i k n D) as (q' & (ps' & Y1 & Y2) & _ & MJ).
    rewrite X1 in Y1. injection Y1 as <-. rewrite X2 in Y2. injection Y2 as <-. exists i, k, n. split; [exact D|]. rewrite MJ. reflexivity. }
  destruct (check_types_spec m1 (seq 0 (rs_size s))) as (ok & CT & OK).
  { intros q I. apply in_seq in I. destruct (JOINT q ltac:(lia)) as (i & k & n & D & ->). eapply DEC; eauto. }
  rewrite CT. cbn [bind].
  assert (IFF : ok = true <-> forall i k n, declares_joint K r i k n -> exists u, rb_joint r n = Some u /\ movable u).
  { rewrite OK. split.
    - intros A i k n D. destruct (DJ i k n D) as (q & _ & LT & MJ). destruct (A q ltac:(apply in_seq; lia)) as (u & X & M). rewrite MJ in X. exists u. split; [exact X|exact M].
    - intros A q I. apply in_seq in I. destruct (JOINT q ltac:(lia)) as (i & k & n & D & ->). apply (A i k n D). }
  assert (RL : forall A (d : A) n, List.length (resize d n []) = n).
  { intros A d n. unfold resize. rewrite firstn_nil. cbn [app List.length]. rewrite repeat_length. lia. }
  destruct ok; cbn [negb]; eexists; (split; [reflexivity|]).
  - split; [split; [intros _; split; [exact U|apply IFF; reflexivity]|discriminate]|]. intros s' p0 R. injection R as <- <-.
    cbn [pl_ts pl_mem pl_hw pl_jstats pl_astats pl_js jm_name jm_position jm_velocity jm_effort]. rewrite !RL.
    split; [reflexivity|]. split; [intros a; rewrite MA; reflexivity|]. repeat (split; [reflexivity|]). split; [exact DJ|exact ALL'].
  - split; [|discriminate]. split; [congruence|]. intros [_ A]. assert (false = true) by (apply IFF; exact A). discriminate.
Qed.
End C82.

(** ** Examples: the robot of C41_ex starts; with one fixed joint it does not *)
Section Example.
Local Open Scope string_scope.
Local Open Scope list_scope.
Example C82_ex_starts : exists p0, cm_initXml (builtin true ex_P) true ex_L ex_urdf (ex_root []) 0%R ex_hw ex_mem0 =
  Ok (Some (mkRstate 2 [[0]; [1]] [[0]; [1]] [("j1", 1); ("j0", 0)], p0)).
Proof. exact exr_init. Qed.
Definition ex_fixed_urdf (x : xml) : option (string -> option (ujoint R)) :=
  match ex_urdf x with
  | Some f => Some (fun n => match f n with
                             | Some u => Some (if String.eqb n "j1" then mkUjoint (uj_name u) JFIXED (uj_safety u) (uj_limits u) (uj_calib u) else u)
                             | None => None end)
  | None => None
  end.
Example C82_ex_refused : cm_initXml (builtin true ex_P) true ex_L ex_fixed_urdf (ex_root []) 0%R ex_hw ex_mem0 = Ok None.
Proof. reflexivity. Qed.
End Example.
