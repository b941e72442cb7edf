(** Statistics samples under concurrency: one per controller and cycle. *)
From Coq Require Import List String Arith Bool ZArith Lia.
From Verif.Model Require Import Base Scheduler Controller Manager ManagerConc.
From Verif.Spec Require Import SchedulerSpec ManagerSpec ConcSpec StatsSpec.
From Verif.Proofs Require Import SchedulerProofs ManagerProofs ManagerInv ManagerOps ConcBase ConcInv ConcTrace ConcHist ConcCycle ConcProgress Race.
Import ListNotations.

Section TC.
Context {W : Type} (H : hooks W).
Hypothesis Hpm : (0 < h_per_mech H)%Z.
Hypothesis Hpj : (0 < h_per_js H)%Z.
Notation mgr := (mgr W).
Notation config := (config W).

Definition st_same (m m' : mgr) : Prop := forall p, co_stats (heap m' p) = co_stats (heap m p).
Lemma ss_refl m : st_same m m. Proof. intros p. reflexivity. Qed.
Lemma ss_trans m1 m2 m3 : st_same m1 m2 -> st_same m2 m3 -> st_same m1 m3.
Proof. intros A B p. rewrite B. apply A. Qed.
Lemma ss_heap m m' : heap m' = heap m -> st_same m m'.
Proof. intros E p. now rewrite E. Qed.
Lemma ss_now m : st_same m (snd (now H m)).
Proof. unfold now. destruct (h_now H (world m)). apply ss_heap. reflexivity. Qed.
Lemma ss_put p s m : st_same m (put_state p s m).
Proof. intros q. unfold put_state. cbn. unfold upd_heap. destruct (Nat.eqb_spec q p); subst; reflexivity. Qed.
Lemma ss_calls p cbs m : st_same m (calls H p cbs m).
Proof. apply ss_heap. destruct (calls_spec H p cbs m) as (E & _). exact E. Qed.
Lemma ss_stop p m : st_same m (snd (stop_ctrl H p m)).
Proof. unfold stop_ctrl. destruct (stopRequest (state_of m p)) as [[b cbs] s]. cbn [snd]. eapply ss_trans; [apply ss_calls|apply ss_put]. Qed.
Lemma ss_start p m : st_same m (snd (start_ctrl H p m)).
Proof. unfold start_ctrl. destruct (startRequest (state_of m p)) as [[b cbs] s]. cbn [snd]. eapply ss_trans; [apply ss_calls|apply ss_put]. Qed.
Lemma ss_update p m : st_same m (update_ctrl H p m).
Proof. unfold update_ctrl. destruct (updateRequest (state_of m p)) as [cbs s]. eapply ss_trans; [apply ss_calls|apply ss_put]. Qed.
Lemma ss_pre m : st_same m (rt_pre H m).
Proof.
  unfold rt_pre. pose proof (ss_now m) as A. destruct (now H m) as [t1 m1]. cbn [snd] in A.
  match goal with |- context [now H ?x] => pose proof (ss_now x) as B; destruct (now H x) as [t2 m3] end. cbn [snd] in B.
  eapply ss_trans; [exact A|]. eapply ss_trans; [|exact B]. apply ss_heap. reflexivity.
Qed.
Lemma ss_enforce m : st_same m (rt_enforce H m).
Proof. unfold rt_enforce. pose proof (ss_now m) as A. destruct (now H m) as [t1 m1]. eapply ss_trans; [exact A|]. apply ss_heap. reflexivity. Qed.
Lemma ss_send m : st_same m (rt_send H m).
Proof. unfold rt_send. pose proof (ss_now (on_world (h_effort H) (log EvEffort m))) as A. destruct (now H _) as [t1 m1]. eapply ss_trans; [|exact A]. apply ss_heap. reflexivity. Qed.
Lemma ss_js lock m m' : publishJointState H lock m = Ok m' -> st_same m m'.
Proof.
  unfold publishJointState. pose proof (ss_now m) as A. destruct (now H m) as [t m1]. cbn [snd] in A. destruct (_ <? t)%Z; [|intros [= <-]; exact A].
  destruct lock; [|intros [= <-]; exact A]. destruct (catch_up _ _ _ _) as [x| | |]; cbn [bind]; try discriminate.
  pose proof (ss_now (on_world (h_pub_js H t) (set_last_js x m1))) as B. destruct (now H _) as [t2 m2]. cbn [snd] in B. intros [= <-].
  eapply ss_trans; [exact A|]. eapply ss_trans; [|exact B]. apply ss_heap. reflexivity.
Qed.
(** the one exception: the controller whose turn it is *)
Lemma update_one_samples m i m' : rt_update_one H m i = Ok m' ->
  exists e d, rt_nth m i = Ok e /\
    forall p, st_samples (co_stats (heap m' p)) = st_samples (co_stats (heap m p)) ++ (if Nat.eqb p (e_ptr e) then [d] else []).
Proof.
  unfold rt_update_one. destruct (rt_nth m i) as [e| | |]; cbn [bind]; try discriminate. pose proof (ss_now m) as A. destruct (now H m) as [t0 m0]. cbn [snd] in A.
  pose proof (ss_update (e_ptr e) m0) as B. pose proof (ss_now (update_ctrl H (e_ptr e) m0)) as C. destruct (now H (update_ctrl H (e_ptr e) m0)) as [t1 m1]. cbn [snd] in C.
  intros [= <-]. exists e, (t1 - t0)%Z. split; auto. intros p. cbn. unfold upd_heap.
  assert (X : co_stats (heap m1 p) = co_stats (heap m p)) by (rewrite C, B; apply A).
  destruct (Nat.eqb_spec p (e_ptr e)); [|now rewrite X, app_nil_r]. subst p. cbn. rewrite X. reflexivity.
Qed.

Lemma rt_same free a b pc m m' pc' : rt_step H free a b pc m = Ok (m', pc') ->
  (forall i, pc = RUpdate i -> pc' <> RUpdate (S i)) -> st_same m m'.
Proof.
  intros E NU. destruct pc as [|x| |i|i|i| | |t| | |ps|ps|]; cbn [rt_step] in E; try (injection E as <- _; apply ss_refl).
  - injection E as <- _. apply ss_heap. reflexivity.
  - pose proof (ss_pre m) as A. cbv zeta in E. destruct (rt_must_restart H (rt_pre H m)); injection E as <- _; [exact A|]. eapply ss_trans; [exact A|apply ss_heap; reflexivity].
  - destruct (rt_list m) as [l| | |]; cbn [bind] in E; try discriminate. destruct (Nat.ltb i (List.length l)); [|injection E as <- _; apply ss_heap; reflexivity].
    destruct (rt_nth m i) as [e| | |]; cbn [bind] in E; try discriminate. destruct (isRunning _); [|injection E as <- _; apply ss_refl].
    pose proof (ss_stop (e_ptr e) m) as A. destruct (stop_ctrl H (e_ptr e) m). injection E as <- _. exact A.
  - destruct (rt_nth m i) as [e| | |]; cbn [bind] in E; try discriminate. pose proof (ss_start (e_ptr e) m) as A. destruct (start_ctrl H (e_ptr e) m). injection E as <- _. exact A.
  - destruct (rt_list m) as [l| | |]; cbn [bind] in E; try discriminate. destruct (Nat.ltb i (List.length l)); [|injection E as <- _; apply ss_enforce].
    destruct (rt_update_one H m i) as [m1| | |] eqn:U; cbn [bind] in E; try discriminate. injection E as _ <-. destruct (NU i eq_refl eq_refl).
  - injection E as <- _. apply ss_send.
  - pose proof (ss_now m) as A. destruct (now H m) as [t m1]. cbn [snd] in A. destruct (mech_due H t m1 && free && a); injection E as <- _; exact A.
  - destruct (rt_fill_mech H t m) as [m1| | |] eqn:U; cbn [bind] in E; try discriminate. injection E as <- _. apply ss_heap. now apply (fill_leaves H t m m1).
  - destruct (publishJointState H b m) as [m1| | |] eqn:U; cbn [bind] in E; try discriminate. injection E as <- _. eapply ss_js; exact U.
  - destruct (please m); injection E as <- _; apply ss_refl.
  - destruct ps as [|p ps]; injection E as <- _; [apply ss_refl|]. unfold rt_stop_one. pose proof (ss_stop p m) as A. destruct (stop_ctrl H p m) as [bb m1]. cbn [snd] in A.
    destruct bb; [exact A|]. eapply ss_trans; [exact A|apply ss_heap; reflexivity].
  - destruct ps as [|p ps]; injection E as <- _; [apply ss_refl|]. unfold rt_start_one. pose proof (ss_start p m) as A. destruct (start_ctrl H p m) as [bb m1]. cbn [snd] in A.
    destruct bb; [exact A|]. eapply ss_trans; [exact A|apply ss_heap; reflexivity].
  - injection E as <- _. apply ss_heap. reflexivity.
Qed.

(* ------------------------------------------------------------------ the invariant *)
Definition smp (m : mgr) (p : ptr) : list Z := st_samples (co_stats (heap m p)).
Definition sampled (c : config) : Prop := forall b, used (mg c) = Some b ->
  match rt c with
  | RIdle | RGot _ => True
  | RBegin | RRestart _ | RRestarting _ => forall e, In e (lists (mg c) b) -> smp (mg c) (e_ptr e) = smp (snap c) (e_ptr e)
  | RUpdate i => forall j e, nth_error (order_in_list (mg c) b) j = Some e ->
      exists r, smp (mg c) (e_ptr e) = smp (snap c) (e_ptr e) ++ r /\ List.length r = if Nat.ltb j i then 1 else 0
  | _ => forall e, In e (lists (mg c) b) -> exists d, smp (mg c) (e_ptr e) = smp (snap c) (e_ptr e) ++ [d]
  end.

Lemma order_eq (m m' : mgr) b : lists m' b = lists m b -> scheds m' b = scheds m b -> order_in_list m' b = order_in_list m b.
Proof. intros A B. unfold order_in_list. rewrite A, B. reflexivity. Qed.

Lemma sampled_client c c' : InvB c -> client c c' -> sampled c -> sampled c'.
Proof.
  intros I C S b Hb. rewrite (cl_used c c' C) in Hb. destruct (cl_lists c c' C b Hb) as [L1 L2]. pose proof (used_good c b I Hb) as G.
  assert (X : forall e, In e (lists (mg c) b) -> smp (mg c') (e_ptr e) = smp (mg c) (e_ptr e)).
  { intros e IN. unfold smp. rewrite (cl_heap c c' C); auto. apply (gl_lt _ _ G e IN). }
  specialize (S b Hb). rewrite (cl_rt c c' C), (cl_snap c c' C), ?L1, ?(order_eq (mg c) (mg c') b L1 L2).
  destruct (rt c); auto; intros; try (rewrite X by auto; now apply S).
  rewrite X by (eapply order_in_list_in, nth_error_In; eauto). now apply S.
Qed.

Lemma order_index (m : mgr) b i j e e' : GoodList m b -> nth_error (order_in_list m b) i = Some e -> nth_error (order_in_list m b) j = Some e' ->
  e_ptr e = e_ptr e' -> i = j.
Proof.
  intros G A B E. pose proof (order_of_nodup m b G) as ND. rewrite order_of_map in ND. rewrite NoDup_nth_error in ND. apply ND.
  - rewrite map_length. apply nth_error_Some. congruence.
  - rewrite (map_nth_error _ _ _ A), (map_nth_error _ _ _ B). now f_equal.
Qed.

Lemma sampled_rt a b0 c c' : InvB c -> ~ stale_start c -> do_rt H a b0 c = Ok c' -> sampled c -> sampled c'.
Proof.
  intros I NS E S. destruct (do_rt_desc H Hpm Hpj a b0 c c' I NS E) as (evs & T & D & _ & _ & _ & _ & SN).
  unfold do_rt in E. destruct (rt_step H _ a b0 (rt c) (mg c)) as [[m' pc']| | |] eqn:E1; cbn [bind] in E; try discriminate.
  injection E as E2. assert (M : m' = mg c') by now rewrite <- E2. assert (PC : pc' = rt c') by now rewrite <- E2. clear E2. subst m' pc'.
  pose proof (fun N => rt_same _ a b0 (rt c) (mg c) (mg c') (rt c') E1 N) as SM.
  assert (FR : frame (mg c) (mg c') -> used (mg c') = used (mg c) /\ forall b, lists (mg c') b = lists (mg c) b /\ scheds (mg c') b = scheds (mg c) b).
  { intros (F1 & F2 & _ & F4 & _). rewrite F1, F2, F4. auto. }
  unfold rt_desc in D.
  (* steps that stay within a stage and change no statistics *)
  destruct (rt c) as [|x| |i|i|i| | |t| | |ps|ps|] eqn:Hr.
  - destruct D as (_ & P & _). intros b Hb. rewrite P. exact Logic.I.
  - destruct D as (EM & P & _). intros b Hb. rewrite P. destruct SN as [SN _]. rewrite SN. intros e _. reflexivity.
  - destruct D as (F & _ & _ & P). destruct SN as [SN _]. destruct (FR F) as [FU FL]. specialize (SM ltac:(discriminate)).
    intros b Hb. rewrite FU in Hb. specialize (S b Hb). rewrite Hr in S. destruct (FL b) as [L1 L2].
    destruct P as [[P _]|P]; rewrite P, ?L1, SN.
    + intros e IN. unfold smp in *. rewrite SM. now apply S.
    + intros j e IN. exists []. rewrite app_nil_r. split; [|reflexivity]. unfold smp in *. rewrite SM. apply S.
      rewrite <- L1. eapply order_in_list_in, nth_error_In, IN.
  - destruct D as (F & b & Hb & P). destruct SN as [SN _]. destruct (FR F) as [FU FL]. specialize (SM ltac:(discriminate)).
    intros b' Hb'. rewrite FU in Hb'. assert (b' = b) by congruence. subst b'. clear Hb'. specialize (S b Hb). rewrite Hr in S. destruct (FL b) as [L1 L2].
    assert (Q : (exists i, rt c' = RRestart i) \/ (exists i, rt c' = RRestarting i) \/ rt c' = RUpdate 0).
    { destruct P as [(e & _ & _ & P)|(_ & _ & P & _)]; [|eauto]. destruct (runningb (mg c) (e_ptr e)); destruct P as (_ & P & _); eauto. }
    destruct Q as [[k Q]|[[k Q]|Q]]; rewrite Q, ?L1, SN.
    + intros e IN. unfold smp in *. rewrite SM. now apply S.
    + intros e IN. unfold smp in *. rewrite SM. now apply S.
    + intros j e IN. exists []. rewrite app_nil_r. split; [|reflexivity]. unfold smp in *. rewrite SM. apply S.
      rewrite <- L1. eapply order_in_list_in, nth_error_In, IN.
  - destruct D as (F & b & e0 & Hb & _ & _ & _ & P & _). destruct SN as [SN _]. destruct (FR F) as [FU FL]. specialize (SM ltac:(discriminate)).
    intros b' Hb'. rewrite FU in Hb'. assert (b' = b) by congruence. subst b'. clear Hb'. specialize (S b Hb). rewrite Hr in S. destruct (FL b) as [L1 L2].
    rewrite P, L1, SN. intros e IN. unfold smp in *. rewrite SM. now apply S.
  - destruct D as (F & _ & b & Hb & P). destruct SN as [SN _]. destruct (FR F) as [FU FL]. pose proof (used_good c b I Hb) as G.
    intros b' Hb'. rewrite FU in Hb'. assert (b' = b) by congruence. subst b'. clear Hb'. specialize (S b Hb). rewrite Hr in S. destruct (FL b) as [L1 L2].
    destruct P as [(e0 & N0 & _ & P & _)|(LE & _ & P)]; rewrite P, SN.
    + cbn [rt_step] in E1. destruct (rt_list (mg c)) as [l| | |] eqn:RL; cbn [bind] in E1; try discriminate.
      destruct (Nat.ltb i (List.length l)) eqn:LT; [|injection E1 as _ X; congruence].
      destruct (rt_update_one H (mg c) i) as [m1| | |] eqn:U; cbn [bind] in E1; try discriminate. injection E1 as -> _.
      destruct (update_one_samples _ _ _ U) as (e1 & d & N1 & SA).
      assert (E01 : e1 = e0).
      { destruct (rt_nth_good (mg c) b i G Hb) as (e2 & X1 & X2 & _); [|congruence].
        rewrite <- (order_in_list_length (mg c) b G). apply nth_error_Some. congruence. }
      subst e1. intros j e IN. rewrite (order_eq (mg c) (mg c') b L1 L2) in IN. destruct (S j e IN) as (r & R1 & R2).
      unfold smp in *. rewrite SA, R1, <- app_assoc. eexists. split; [reflexivity|]. rewrite app_length, R2.
      destruct (Nat.eqb_spec (e_ptr e) (e_ptr e0)) as [Q|Q].
      * assert (j = i) by (eapply order_index; eauto). subst j. rewrite Nat.ltb_irrefl. replace (Nat.ltb i (Datatypes.S i)) with true by (symmetry; apply Nat.ltb_lt; lia). reflexivity.
      * assert (j <> i) by (intros ->; congruence). cbn [List.length].
        destruct (Nat.ltb_spec j i), (Nat.ltb_spec j (Datatypes.S i)); try lia; reflexivity.
    + assert (SM' : st_same (mg c) (mg c')) by (apply SM; intros k _ X; congruence).
      intros e IN. rewrite L1 in IN. destruct (In_nth_error (order_in_list (mg c) b) e) as (j & J).
      { eapply Permutation.Permutation_in; [apply Permutation.Permutation_sym, order_in_list_perm, G|exact IN]. }
      destruct (S j e J) as (r & R1 & R2). assert (LT : j < i).
      { assert (j < List.length (order_in_list (mg c) b)) by (apply nth_error_Some; congruence). rewrite (order_in_list_length _ _ G) in *. lia. }
      apply Nat.ltb_lt in LT. rewrite LT in R2. destruct r as [|d [|]]; try discriminate. exists d. unfold smp in *. now rewrite SM'.
  - destruct D as (F & _ & _ & P). destruct SN as [SN _]. destruct (FR F) as [FU FL]. specialize (SM ltac:(discriminate)).
    intros b Hb. rewrite FU in Hb. specialize (S b Hb). rewrite Hr in S. destruct (FL b) as [L1 L2]. rewrite P, L1, SN.
    intros e IN. unfold smp in *. rewrite SM. now apply S.
  - destruct D as (F & _ & _ & P). destruct SN as [SN _]. destruct (FR F) as [FU FL]. specialize (SM ltac:(discriminate)).
    intros b Hb. rewrite FU in Hb. specialize (S b Hb). rewrite Hr in S. destruct (FL b) as [L1 L2].
    destruct P as [P|[t P]]; rewrite P, L1, SN; intros e IN; unfold smp in *; rewrite SM; now apply S.
  - destruct D as (F & _ & P & _). destruct SN as [SN _]. destruct (FR F) as [FU FL]. specialize (SM ltac:(discriminate)).
    intros b Hb. rewrite FU in Hb. specialize (S b Hb). rewrite Hr in S. destruct (FL b) as [L1 L2]. rewrite P, L1, SN.
    intros e IN. unfold smp in *. rewrite SM. now apply S.
  - destruct D as (F & _ & P & _). destruct SN as [SN _]. destruct (FR F) as [FU FL]. specialize (SM ltac:(discriminate)).
    intros b Hb. rewrite FU in Hb. specialize (S b Hb). rewrite Hr in S. destruct (FL b) as [L1 L2]. rewrite P, L1, SN.
    intros e IN. unfold smp in *. rewrite SM. now apply S.
  - destruct D as (EM & _ & P). destruct SN as [SN _]. intros b Hb. rewrite EM in *. specialize (S b Hb). rewrite Hr in S. rewrite SN.
    destruct (please (mg c)); rewrite P; auto.
  - destruct SN as [SN _]. destruct ps as [|p ps].
    + destruct D as (EM & _ & P). intros b Hb. rewrite EM in *. specialize (S b Hb). rewrite Hr in S. rewrite P, SN. exact S.
    + destruct D as (F & _ & _ & P & _). destruct (FR F) as [FU FL]. specialize (SM ltac:(discriminate)).
      intros b Hb. rewrite FU in Hb. specialize (S b Hb). rewrite Hr in S. destruct (FL b) as [L1 L2]. rewrite P, L1, SN.
      intros e IN. unfold smp in *. rewrite SM. now apply S.
  - destruct SN as [SN _]. destruct ps as [|p ps].
    + destruct D as (EM & _ & P). intros b Hb. rewrite EM in *. specialize (S b Hb). rewrite Hr in S. rewrite P, SN. exact S.
    + destruct D as (F & _ & _ & P & _). destruct (FR F) as [FU FL]. specialize (SM ltac:(discriminate)).
      intros b Hb. rewrite FU in Hb. specialize (S b Hb). rewrite Hr in S. destruct (FL b) as [L1 L2]. rewrite P, L1, SN.
      intros e IN. unfold smp in *. rewrite SM. now apply S.
  - destruct D as (_ & _ & P). intros b Hb. rewrite P. exact Logic.I.
Qed.

End TC.
