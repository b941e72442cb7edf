(** The remembered motor state through one operation of the manager. *)
From Coq Require Import List String Arith Bool ZArith Lia.
From Verif.Model Require Import Base Num Joint Hardware Transmission Scheduler Controller Manager Robot System.
From Verif.Spec Require Import SystemSpec.
From Verif.Proofs Require Import WorldSteps.
Import ListNotations.

Section Prev.
Context {W : Type} (H : hooks W).
Notation mgr := (mgr W).

Definition same_prev (m m' : mgr) : Prop := prev_halted m' = prev_halted m.
Lemma calls_prev p cbs : forall m, same_prev m (calls H p cbs m).
Proof. induction cbs as [|k cbs IH]; intros m; [reflexivity|]. cbn [calls fold_left]. apply (IH (call H p m k)). Qed.
Lemma stop_prev p m : same_prev m (snd (stop_ctrl H p m)).
Proof. unfold stop_ctrl. destruct (stopRequest _) as [[b cbs] s]. cbn [snd]. apply (calls_prev p cbs m). Qed.
Lemma start_prev p m : same_prev m (snd (start_ctrl H p m)).
Proof. unfold start_ctrl. destruct (startRequest _) as [[b cbs] s]. cbn [snd]. apply (calls_prev p cbs m). Qed.
Lemma same_prev_trans a b c : same_prev a b -> same_prev b c -> same_prev a c.
Proof. unfold same_prev. congruence. Qed.
Lemma for_each_prev f : (forall m i m', f m i = Ok m' -> same_prev m m') ->
  forall is m m', for_each f is m = Ok m' -> same_prev m m'.
Proof.
  intros F. induction is as [|i is IH]; intros m m' E; cbn [for_each] in E.
  - injection E as <-. reflexivity.
  - destruct (f m i) as [m1| | |] eqn:E1; cbn [bind] in E; try discriminate. eapply same_prev_trans; eauto.
Qed.
Lemma now_prev m : same_prev m (snd (now H m)).
Proof. unfold now. destruct (h_now H (world m)). reflexivity. Qed.
Lemma update_all_prev m m' : rt_update_all H m = Ok m' -> same_prev m m'.
Proof.
  unfold rt_update_all. destruct (rt_list m) as [l| | |]; cbn [bind]; try discriminate. apply for_each_prev. clear.
  intros m i m'. unfold rt_update_one. destruct (rt_nth m i) as [e| | |]; cbn [bind]; try discriminate.
  pose proof (now_prev m) as A. destruct (now H m) as [t0 m1]. cbn [snd] in A.
  assert (B : same_prev m1 (update_ctrl H (e_ptr e) m1)).
  { unfold update_ctrl. destruct (updateRequest _) as [cbs s]. apply (calls_prev (e_ptr e) cbs m1). }
  pose proof (now_prev (update_ctrl H (e_ptr e) m1)) as C. destruct (now H (update_ctrl H (e_ptr e) m1)) as [t1 m3]. cbn [snd] in C.
  intros E. injection E as <-. exact (same_prev_trans _ _ _ A (same_prev_trans _ _ _ B C)).
Qed.
Lemma mech_prev lock m m' : publishMechanismStatistics H lock m = Ok m' -> same_prev m m'.
Proof.
  unfold publishMechanismStatistics. pose proof (now_prev m) as A. destruct (now H m) as [t m1]. cbn [snd] in A.
  destruct (mech_due H t m1); [|intros E; injection E as <-; exact A]. destruct lock; [|intros E; injection E as <-; exact A].
  unfold rt_fill_mech. destruct (catch_up _ _ _ _) as [last| | |]; cbn [bind]; try discriminate.
  destruct (rt_list _) as [l| | |]; cbn [bind]; try discriminate.
  destruct (fill_stats _ _ _ _ _) as [out| | |]; cbn [bind]; try discriminate.
  set (m2 := set_mstats _ _). assert (B : same_prev m1 m2) by reflexivity. clearbody m2.
  pose proof (now_prev m2) as C. destruct (now H m2) as [t2 m3]. cbn [snd] in C. intros E. injection E as <-.
  exact (same_prev_trans _ _ _ A (same_prev_trans _ _ _ B C)).
Qed.
Lemma js_prev lock m m' : publishJointState H lock m = Ok m' -> same_prev m m'.
Proof.
  unfold publishJointState. pose proof (now_prev m) as A. destruct (now H m) as [t m1]. cbn [snd] in A.
  destruct (_ <? t)%Z; [|intros E; injection E as <-; exact A]. destruct lock; [|intros E; injection E as <-; exact A].
  destruct (catch_up _ _ _ _) as [last| | |]; cbn [bind]; try discriminate.
  set (m2 := on_world _ _). assert (B : same_prev m1 m2) by reflexivity. clearbody m2.
  pose proof (now_prev m2) as C. destruct (now H m2) as [t2 m3]. cbn [snd] in C. intros E. injection E as <-.
  exact (same_prev_trans _ _ _ A (same_prev_trans _ _ _ B C)).
Qed.
Lemma switch_prev m : same_prev m (rt_switch H m).
Proof.
  unfold rt_switch. destruct (please m); [|reflexivity].
  assert (A : forall ps m, same_prev m (fold_left (rt_stop_one H) ps m)).
  { induction ps as [|p ps IH]; intros m0; [reflexivity|]. cbn [fold_left]. eapply same_prev_trans; [|apply IH]. unfold rt_stop_one.
    pose proof (stop_prev p m0) as B. destruct (stop_ctrl H p m0) as [[] m1]; exact B. }
  assert (B : forall ps m, same_prev m (fold_left (rt_start_one H) ps m)).
  { induction ps as [|p ps IH]; intros m0; [reflexivity|]. cbn [fold_left]. eapply same_prev_trans; [|apply IH]. unfold rt_start_one.
    pose proof (start_prev p m0) as B. destruct (start_ctrl H p m0) as [[] m1]; exact B. }
  eapply same_prev_trans; [apply (A (stop_req m) m)|]. set (m1 := fold_left (rt_stop_one H) _ _). apply (B (start_req m1) m1).
Qed.

(** the remembered state after a cycle: the motors as read after the restarts of that cycle *)
Lemma update_prev l1 l2 m m' : update H l1 l2 m = Ok m' ->
  exists cbs w2, acts H cbs (world (rt_pre H (rt_use (cur m) m))) w2 /\ prev_halted m' = h_halted H w2.
Proof.
  unfold update. set (m1 := rt_pre H _). clearbody m1. intros E.
  destruct (rt_restart H m1) as [m2| | |] eqn:E2; cbn [bind] in E; try discriminate.
  destruct (rt_update_all H m2) as [m3| | |] eqn:E3; cbn [bind] in E; try discriminate.
  destruct (publishMechanismStatistics H l1 _) as [m5| | |] eqn:E5; cbn [bind] in E; try discriminate.
  destruct (publishJointState H l2 _) as [m6| | |] eqn:E6; cbn [bind] in E; try discriminate. injection E as <-.
  assert (P : same_prev m2 (rt_switch H m6)).
  { eapply same_prev_trans; [|apply switch_prev]. eapply same_prev_trans; [|exact (js_prev _ _ _ E6)]. eapply same_prev_trans; [|exact (mech_prev _ _ _ E5)].
    eapply same_prev_trans; [exact (update_all_prev _ _ E3)|]. clear. unfold rt_post, rt_enforce, rt_send.
    pose proof (now_prev m3) as A. destruct (now H m3) as [t m4]. cbn [snd] in A. set (m5 := on_world _ (log EvEffort _)).
    assert (B : same_prev m4 m5) by reflexivity. clearbody m5. pose proof (now_prev m5) as C. destruct (now H m5) as [t2 m6]. cbn [snd] in C.
    exact (same_prev_trans _ _ _ A (same_prev_trans _ _ _ B C)). }
  destruct (ran_restart H m1 m2 E2) as [cbs [_ A]]. exists cbs, (world m2). split; [exact A|]. rewrite P. clear - E2.
  unfold rt_restart in E2. destruct (rt_list m1) as [l| | |]; cbn [bind] in E2; try discriminate.
  destruct (if rt_must_restart H m1 then _ else _) as [m0| | |]; cbn [bind] in E2; try discriminate. injection E2 as <-. reflexivity.
Qed.

(** no other operation touches it *)
Lemma service_prev m o a m' : step H m o (Ok (a, m')) -> (forall l1 l2, o <> OpUpdate l1 l2) -> same_prev m m'.
Proof.
  intros S NU. remember (Ok (a, m')) as r eqn:E. destruct S as [m env name P|m name P|m st sp k P|m l1 l2|m f|m P HL].
  - unfold loadController in E.
    assert (X : forall m2, (load_body H env name m = Rejected m2 \/ load_body H env name m = Thrown m2 \/ load_body H env name m = Ready m2) -> same_prev m m2).
    { intros m2. unfold load_body.
      repeat match goal with |- context [if ?c then _ else _] => destruct c end;
      try (intros [K|[K|K]]; try discriminate; injection K as <-; reflexivity).
      destruct (construct env name) as [[[ty pr]|]|];
      try (intros [K|[K|K]]; try discriminate; injection K as <-; reflexivity).
      destruct (initRequest _ _ _ _) as [[[ir cbs] s] d].
      set (m3 := set_next _ _). assert (P3 : same_prev m m3) by reflexivity. clearbody m3.
      pose proof (calls_prev (next (set_lists (upd (lists m) (free_list m) (lists m (cur m))) m)) cbs m3) as B.
      pose proof (same_prev_trans _ _ _ P3 B) as C.
      destruct ir as [[]|];
      try (intros [K|[K|K]]; try discriminate; injection K as <-; exact C).
      destruct (scheduleControllers _ _); intros [K|[K|K]]; try discriminate; injection K as <-; exact C. }
    destruct (load_body H env name m) as [m2|m2|m2|]; try discriminate; injection E as <- <-; exact (X m2 ltac:(auto)).
  - unfold unloadController in E.
    assert (X : forall m2, (unload_body name m = Rejected m2 \/ unload_body name m = Thrown m2 \/ unload_body name m = Ready m2) -> same_prev m m2).
    { intros m2. unfold unload_body.
      destruct (existsb _ _); [intros [K|[K|K]]; try discriminate; injection K as <-; reflexivity|].
      destruct (transfer _ _ _) as [[[] to]|];
      try (intros [K|[K|K]]; try discriminate; injection K as <-; reflexivity).
      destruct (scheduleControllers _ _); intros [K|[K|K]]; try discriminate; injection K as <-; reflexivity. }
    destruct (unload_body name m) as [m2|m2|m2|]; try discriminate; injection E as <- <-; exact (X m2 ltac:(auto)).
  - assert (X : forall m2, (switch_body st sp k m = Rejected m2 \/ switch_body st sp k m = Thrown m2 \/ switch_body st sp k m = Ready m2) -> same_prev m m2).
    { intros m2. unfold switch_body. cbv zeta.
      destruct (collect m _ sp) as [ps|]; [|intros [K|[K|K]]; try discriminate; injection K as <-; reflexivity].
      destruct (collect _ _ st) as [qs|]; intros [K|[K|K]]; try discriminate; injection K as <-; reflexivity. }
    destruct (switch_body st sp k m) as [m2|m2|m2|]; try discriminate; injection E as <- <-; exact (X m2 ltac:(auto)).
  - exfalso. eapply NU; reflexivity.
  - injection E as _ <-. reflexivity.
  - injection E as _ <-. reflexivity.
Qed.
End Prev.
