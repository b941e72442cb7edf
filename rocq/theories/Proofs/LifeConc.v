(** The callback history of every controller object under concurrency. *)
From Coq Require Import List String Arith Bool ZArith Lia.
From Verif.Model Require Import Base Scheduler Controller Manager ManagerConc.
From Verif.Spec Require Import ControllerSpec SchedulerSpec ManagerSpec ConcSpec SequentialSpec LifeSpec.
From Verif.Proofs Require Import SchedulerProofs ManagerProofs ManagerOps Sequential.
Import ListNotations.

Section LC.
Local Arguments callbacks_of : simpl never.
Context {W : Type} (H : hooks W).
Notation mgr := (mgr W).
Notation config := (config W).

(** a history of requests on one object: the one of [load_controller], then those of the realtime thread *)
Definition is_start_stop_update (r : request) : bool := match r with RInit _ _ => false | _ => true end.
Definition born_with (m : mgr) (p : ptr) (prov : option provider) (pr : iprog) (rs : list request) : Prop :=
  forallb is_start_stop_update rs = true /\
  exists bs, do_requests (RInit prov pr :: rs) new_obj = (bs, callbacks_of p (trace m), (state_of m p, co_deps (heap m p))).
Definition life_at (m : mgr) (p : ptr) : Prop :=
  if p <? next m then exists prov pr rs, born_with m p prov pr rs else callbacks_of p (trace m) = [].
Definition life (m : mgr) : Prop := forall p, life_at m p.

(** a pointer to a controller that has been initialised *)
Definition fit (m : mgr) (p : ptr) : Prop := p < next m /\ state_of m p <> CONSTRUCTED.
Definition bnd (m : mgr) : Prop :=
  (forall b e, In e (lists m b) -> fit m (e_ptr e)) /\ (forall p, In p (start_req m ++ stop_req m) -> fit m p).
Definition pcb (m : mgr) (pc : rpc) : Prop :=
  match pc with RStop ps | RStart ps => forall p, In p ps -> fit m p | _ => True end.

(* ------------------------------------------------------------------ histories *)
Lemma callbacks_app p t1 t2 : callbacks_of p (t1 ++ t2) = callbacks_of p t1 ++ callbacks_of p t2.
Proof. apply flat_map_app. Qed.
Lemma do_requests_app rs r o :
  do_requests (rs ++ [r]) o =
  let '(bs, tr, o1) := do_requests rs o in let '(b, cbs, o2) := do_request r o1 in (bs ++ [b], tr ++ cbs, o2).
Proof.
  revert o. induction rs as [|r0 rs IH]; intros o; cbn [do_requests app].
  - destruct (do_request r o) as [[b cbs] o2]. now rewrite !app_nil_r.
  - destruct (do_request r0 o) as [[b cbs] o1]. rewrite IH. destruct (do_requests rs o1) as [[bs tr] o2].
    destruct (do_request r o2) as [[b' cbs'] o3]. now rewrite app_assoc.
Qed.

(** [m'] differs from [m] only in what is not seen here *)
Definition unseen (m m' : mgr) : Prop :=
  next m' = next m /\ (forall p, state_of m' p = state_of m p /\ co_deps (heap m' p) = co_deps (heap m p)) /\
  (forall p, callbacks_of p (trace m') = callbacks_of p (trace m)).
Lemma unseen_refl m : unseen m m. Proof. repeat split. Qed.
Lemma unseen_trans a b c : unseen a b -> unseen b c -> unseen a c.
Proof.
  intros (N1 & S1 & T1) (N2 & S2 & T2). split; [congruence|]. split.
  - intros p. destruct (S1 p), (S2 p). split; congruence.
  - intros p. now rewrite T2, T1.
Qed.
Lemma unseen_life m m' : unseen m m' -> life m -> life m'.
Proof.
  intros (N & S & T) L p. specialize (L p). unfold life_at in *. rewrite N. destruct (p <? next m); [|now rewrite T].
  destruct L as (prov & pr & rs & F & bs & E). exists prov, pr, rs. split; [exact F|]. exists bs. destruct (S p) as [S1 S2].
  now rewrite T, S1, S2.
Qed.
Lemma unseen_fit m m' p : unseen m m' -> fit m p -> fit m' p.
Proof. intros (N & S & _) (A & B). split; [now rewrite N|]. now rewrite (proj1 (S p)). Qed.

(** [m'] is [m] after one request on [p] *)
Definition asked (r : request) (p : ptr) (m m' : mgr) : Prop :=
  next m' = next m /\ (forall q, q <> p -> state_of m' q = state_of m q /\ co_deps (heap m' q) = co_deps (heap m q)) /\
  (forall q, q <> p -> callbacks_of q (trace m') = callbacks_of q (trace m)) /\
  exists b cbs, do_request r (state_of m p, co_deps (heap m p)) = (b, cbs, (state_of m' p, co_deps (heap m' p))) /\
    callbacks_of p (trace m') = callbacks_of p (trace m) ++ cbs.
Lemma asked_life r p m m' : is_start_stop_update r = true -> asked r p m m' -> p < next m -> life m -> life m'.
Proof.
  intros IR (N & S & T & b & cbs & E & TP) LT L q. specialize (L q). unfold life_at in *. rewrite N.
  destruct (Nat.eq_dec q p) as [->|NE].
  - apply Nat.ltb_lt in LT. rewrite LT in L |- *. destruct L as (prov & pr & rs & F & bs & E0). exists prov, pr, (rs ++ [r]). split.
    + rewrite forallb_app, F. cbn. now rewrite IR.
    + exists (bs ++ [b]). change (RInit prov pr :: rs ++ [r]) with ((RInit prov pr :: rs) ++ [r]). rewrite do_requests_app, E0, E. now rewrite TP.
  - destruct (q <? next m); [|now rewrite T]. destruct L as (prov & pr & rs & F & bs & E0). exists prov, pr, rs. split; [exact F|]. exists bs.
    destruct (S q NE) as [S1 S2]. now rewrite (T q NE), S1, S2.
Qed.
Lemma asked_fit r p q m m' : is_start_stop_update r = true -> asked r p m m' -> fit m q -> fit m' q.
Proof.
  intros IR (N & S & T & b & cbs & E & TP) (A & B). split; [now rewrite N|]. destruct (Nat.eq_dec q p) as [->|NE]; [|now rewrite (proj1 (S q NE))].
  destruct r; try discriminate; cbn in E; destruct (state_of m p); cbn in E; injection E as _ _ E1 _; congruence.
Qed.

(* ------------------------------------------------------------------ the realtime thread's requests *)
Lemma calls_trace p cbs (m : mgr) : trace (calls H p cbs m) = trace m ++ map (EvCb p) cbs /\ heap (calls H p cbs m) = heap m /\ next (calls H p cbs m) = next m.
Proof.
  unfold calls. revert m. induction cbs as [|cb cbs IH]; intros m; cbn [fold_left map]; [now rewrite app_nil_r|].
  destruct (IH (Manager.call H p m cb)) as (A & B & C). rewrite A, B, C. cbn. now rewrite <- app_assoc.
Qed.
Lemma callbacks_map p q cbs : callbacks_of p (map (EvCb q) cbs) = if Nat.eqb q p then cbs else [].
Proof.
  unfold callbacks_of. induction cbs as [|cb cbs IH]; cbn; [now destruct (Nat.eqb q p)|]. rewrite IH. now destruct (Nat.eqb q p).
Qed.
Lemma put_asked r p (m m0 : mgr) b cbs s :
  do_request r (state_of m p, co_deps (heap m p)) = (b, cbs, (s, co_deps (heap m p))) ->
  m0 = put_state p s (calls H p cbs m) -> asked r p m m0.
Proof.
  intros E ->. destruct (calls_trace p cbs m) as (A & B & C). unfold asked, put_state, state_of. cbn. rewrite A, B, C.
  unfold upd_heap. split; [reflexivity|]. split; [|split].
  - intros q NE. apply Nat.eqb_neq in NE. rewrite NE. split; reflexivity.
  - intros q NE. rewrite callbacks_app, callbacks_map. destruct (Nat.eqb_spec p q); [congruence|]. apply app_nil_r.
  - rewrite Nat.eqb_refl. exists b, cbs. cbn. split; [exact E|]. rewrite callbacks_app, callbacks_map, Nat.eqb_refl. reflexivity.
Qed.
Lemma start_asked p (m : mgr) : asked Controller.RStart p m (snd (start_ctrl H p m)).
Proof. unfold start_ctrl. destruct (startRequest (state_of m p)) as [[b cbs] s] eqn:E. eapply put_asked; [|reflexivity]. cbn. now rewrite E. Qed.
Lemma stop_asked p (m : mgr) : asked Controller.RStop p m (snd (stop_ctrl H p m)).
Proof. unfold stop_ctrl. destruct (stopRequest (state_of m p)) as [[b cbs] s] eqn:E. eapply put_asked; [|reflexivity]. cbn. now rewrite E. Qed.
Lemma update_asked p (m : mgr) : asked Controller.RUpdate p m (update_ctrl H p m).
Proof. unfold update_ctrl. destruct (updateRequest (state_of m p)) as [cbs s] eqn:E. eapply put_asked; [|reflexivity]. cbn. now rewrite E. Qed.

Definition same_ptrs (m m' : mgr) : Prop := lists m' = lists m /\ start_req m' = start_req m /\ stop_req m' = stop_req m.
Lemma same_ptrs_refl m : same_ptrs m m. Proof. repeat split. Qed.
Lemma calls_ptrs p cbs (m : mgr) : same_ptrs m (calls H p cbs m).
Proof. unfold calls. revert m. induction cbs as [|cb cbs IH]; intros m; cbn [fold_left]; [apply same_ptrs_refl|]. destruct (IH (Manager.call H p m cb)) as (A & B & C). repeat split; assumption. Qed.
Lemma start_ptrs p (m : mgr) : same_ptrs m (snd (start_ctrl H p m)).
Proof. unfold start_ctrl. destruct (startRequest _) as [[b cbs] s]. apply (calls_ptrs p cbs m). Qed.
Lemma stop_ptrs p (m : mgr) : same_ptrs m (snd (stop_ctrl H p m)).
Proof. unfold stop_ctrl. destruct (stopRequest _) as [[b cbs] s]. apply (calls_ptrs p cbs m). Qed.
Lemma update_ptrs p (m : mgr) : same_ptrs m (update_ctrl H p m).
Proof. unfold update_ctrl. destruct (updateRequest _) as [cbs s]. apply (calls_ptrs p cbs m). Qed.

Definition sound (m : mgr) : Prop := life m /\ bnd m.
Lemma unseen_sound m m' : unseen m m' -> same_ptrs m m' -> sound m -> sound m'.
Proof.
  intros U (A & B & C) (L & X & Y). split; [now apply (unseen_life m)|]. split.
  - intros b e IN. rewrite A in IN. apply (unseen_fit m); eauto.
  - intros p IN. rewrite B, C in IN. apply (unseen_fit m); eauto.
Qed.
Lemma asked_sound r p m m' : is_start_stop_update r = true -> asked r p m m' -> same_ptrs m m' -> fit m p -> sound m -> sound m'.
Proof.
  intros IR AS (A & B & C) F (L & X & Y). split; [apply (asked_life r p m); auto; apply F|]. split.
  - intros b e IN. rewrite A in IN. eapply asked_fit; eauto.
  - intros q IN. rewrite B, C in IN. eapply asked_fit; eauto.
Qed.
Lemma now_unseen (m : mgr) : unseen m (snd (now H m)) /\ same_ptrs m (snd (now H m)).
Proof. unfold now. destruct (h_now H (world m)). repeat split. Qed.
Lemma log_unseen e (m : mgr) : (forall p, callbacks_of p [e] = []) -> unseen m (log e m).
Proof. intros N. repeat split. intros p. cbn. rewrite callbacks_app, N. apply app_nil_r. Qed.

(** a list entry the realtime thread reads *)
Lemma rt_nth_in (m : mgr) i e : rt_nth m i = Ok e -> exists b, In e (lists m b).
Proof.
  unfold rt_nth, rt_sched, rt_list. destruct (used m) as [b|]; cbn [bind]; [|discriminate]. intros E. exists b.
  destruct (vget (scheds m b) i) as [k| | |]; cbn [bind] in E; try discriminate.
  unfold vget in E. destruct (nth_error (lists m b) k) eqn:N; [|discriminate]. injection E as ->. eapply nth_error_In; eauto.
Qed.

Definition fine (pc : rpc) (m : mgr) : Prop := sound m /\ pcb m pc.
Lemma rt_fine f a b pc (m m' : mgr) pc' : fine pc m -> rt_step H f a b pc m = Ok (m', pc') -> fine pc' m'.
Proof.
  intros [S P] E.
  assert (QUIET : forall m'', unseen m m'' -> same_ptrs m m'' -> sound m'') by (intros; eapply unseen_sound; eauto).
  destruct pc as [|x| |i|i|i| | |t| | |ps|ps|]; cbn [rt_step] in E.
  - injection E as <- <-. split; [exact S|exact Logic.I].
  - injection E as <- <-. split; [|exact Logic.I]. apply QUIET; repeat split.
  - assert (U : unseen m (rt_pre H m) /\ same_ptrs m (rt_pre H m)).
    { unfold rt_pre. destruct (now_unseen m) as [U1 P1]. destruct (now H m) as [t0 m0]. cbn [snd] in U1, P1.
      match goal with |- context [now H ?x] => destruct (now_unseen x) as [U2 P2]; destruct (now H x) as [t1 m1] end. cbn [snd] in U2, P2.
      split.
      - eapply unseen_trans; [exact U1|]. eapply unseen_trans; [|exact U2]. repeat split. intros p. cbn. rewrite !callbacks_app. change (callbacks_of p [EvPropagate]) with (@nil callback). change (callbacks_of p [EvZero]) with (@nil callback). now rewrite !app_nil_r.
      - destruct P1 as (A1 & B1 & C1), P2 as (A2 & B2 & C2). cbn in A2, B2, C2. repeat split; congruence. }
    destruct U as [U Q]. destruct (rt_must_restart H (rt_pre H m)); injection E as <- <-; (split; [|exact Logic.I]).
    + now apply QUIET.
    + apply (unseen_sound (rt_pre H m)); [repeat split|repeat split|now apply QUIET].
  - destruct (rt_list m) as [l| | |]; cbn [bind] in E; try discriminate. destruct (Nat.ltb i (List.length l)).
    + destruct (rt_nth m i) as [e| | |] eqn:N; cbn [bind] in E; try discriminate. apply rt_nth_in in N. destruct N as (x & IN).
      destruct (isRunning (state_of m (e_ptr e))).
      * pose proof (stop_asked (e_ptr e) m) as A. pose proof (stop_ptrs (e_ptr e) m) as Q. destruct (stop_ctrl H (e_ptr e) m) as [y m1]. injection E as <- <-.
        split; [|exact Logic.I]. eapply asked_sound; eauto; [reflexivity|]. now apply (proj1 (proj2 S) x).
      * injection E as <- <-. split; [exact S|exact Logic.I].
    + injection E as <- <-. split; [|exact Logic.I]. apply QUIET; repeat split.
  - destruct (rt_nth m i) as [e| | |] eqn:N; cbn [bind] in E; try discriminate. apply rt_nth_in in N. destruct N as (x & IN).
    pose proof (start_asked (e_ptr e) m) as A. pose proof (start_ptrs (e_ptr e) m) as Q. destruct (start_ctrl H (e_ptr e) m) as [y m1]. injection E as <- <-.
    split; [|exact Logic.I]. eapply asked_sound; eauto; [reflexivity|]. now apply (proj1 (proj2 S) x).
  - destruct (rt_list m) as [l| | |]; cbn [bind] in E; try discriminate. destruct (Nat.ltb i (List.length l)).
    + unfold rt_update_one in E. destruct (rt_nth m i) as [e| | |] eqn:N; cbn [bind] in E; try discriminate. apply rt_nth_in in N. destruct N as (x & IN).
      destruct (now_unseen m) as [U1 P1]. destruct (now H m) as [t0 m0]. cbn [snd] in U1, P1.
      pose proof (update_asked (e_ptr e) m0) as A. pose proof (update_ptrs (e_ptr e) m0) as Q. set (m1 := update_ctrl H (e_ptr e) m0) in *.
      destruct (now_unseen m1) as [U2 P2]. destruct (now H m1) as [t1 m2]. cbn [snd] in U2, P2. cbn [bind] in E. injection E as <- <-.
      split; [|exact Logic.I]. assert (S0 : sound m0) by (now apply QUIET).
      assert (F0 : fit m0 (e_ptr e)) by (apply (unseen_fit m); [exact U1|now apply (proj1 (proj2 S) x)]).
      apply (unseen_sound m2); [|repeat split|].
      * split; [reflexivity|]. split; [|reflexivity]. intros p. unfold state_of. cbn. unfold upd_heap. destruct (Nat.eqb_spec p (e_ptr e)) as [->|]; split; reflexivity.
      * apply (unseen_sound m1); [exact U2|exact P2|]. eapply asked_sound; eauto; reflexivity.
    + injection E as <- <-. split; [|exact Logic.I]. unfold rt_enforce. destruct (now_unseen m) as [U1 P1]. destruct (now H m) as [t0 m0]. cbn [snd] in U1, P1.
      apply (unseen_sound m0); [|repeat split|now apply QUIET]. repeat split. intros p. cbn. rewrite callbacks_app. apply app_nil_r.
  - injection E as <- <-. split; [|exact Logic.I]. unfold rt_send. match goal with |- context [now H ?x] => destruct (now_unseen x) as [U1 P1]; destruct (now H x) as [t0 m0] end.
    cbn [snd] in U1, P1. eapply unseen_sound; [exact U1|exact P1|]. apply QUIET; repeat split. intros p. cbn. rewrite callbacks_app. apply app_nil_r.
  - destruct (now_unseen m) as [U1 P1]. destruct (now H m) as [t0 m0]. cbn [snd] in U1, P1. destruct (_ && _ && _); injection E as <- <-; (split; [now apply QUIET|exact Logic.I]).
  - destruct (rt_fill_mech H t m) as [m1| | |] eqn:F; cbn [bind] in E; try discriminate. injection E as <- <-. split; [|exact Logic.I].
    unfold rt_fill_mech in F. destruct (catch_up _ _ _ _) as [last| | |]; cbn [bind] in F; try discriminate. destruct (rt_list _) as [l| | |]; cbn [bind] in F; try discriminate.
    destruct (fill_stats _ _ _ _ _) as [out| | |]; cbn [bind] in F; try discriminate.
    match type of F with context [now H ?x] => destruct (now_unseen x) as [U1 P1]; destruct (now H x) as [t1 m2] end. injection F as <-. cbn [snd] in U1, P1.
    apply (unseen_sound m2); [|repeat split|eapply unseen_sound; [exact U1|exact P1|apply QUIET; repeat split]]. repeat split. intros p. cbn. rewrite callbacks_app. apply app_nil_r.
  - destruct (publishJointState H b m) as [m1| | |] eqn:F; cbn [bind] in E; try discriminate. injection E as <- <-. split; [|exact Logic.I].
    unfold publishJointState in F. destruct (now_unseen m) as [U1 P1]. destruct (now H m) as [t0 m0]. cbn [snd] in U1, P1. assert (S0 : sound m0) by (now apply QUIET).
    destruct (_ <? _)%Z; [|now injection F as <-]. destruct b; [|now injection F as <-].
    destruct (catch_up _ _ _ _) as [last| | |]; cbn [bind] in F; try discriminate.
    match type of F with context [now H ?x] => destruct (now_unseen x) as [U2 P2]; destruct (now H x) as [t1 m2] end. injection F as <-. cbn [snd] in U2, P2.
    apply (unseen_sound m2); [|repeat split|eapply unseen_sound; [exact U2|exact P2|]].
    + repeat split. intros p. cbn. rewrite callbacks_app. apply app_nil_r.
    + apply (unseen_sound m0); [repeat split|repeat split|exact S0].
  - destruct (please m); injection E as <- <-; (split; [exact S|]); [|exact Logic.I]. intros p IN. apply (proj2 (proj2 S)). apply in_or_app. now right.
  - destruct ps as [|p ps]; injection E as <- <-.
    + split; [exact S|]. intros p IN. apply (proj2 (proj2 S)). apply in_or_app. now left.
    + unfold rt_stop_one. pose proof (stop_asked p m) as A. pose proof (stop_ptrs p m) as Q. destruct (stop_ctrl H p m) as [y m1]. cbn [snd] in A, Q.
      assert (S1 : sound m1) by (eapply asked_sound; eauto; [reflexivity|]; apply P; now left).
      assert (P1 : forall q, In q ps -> fit m1 q) by (intros q IN; eapply asked_fit; eauto; [reflexivity|]; apply P; now right).
      destruct y; [split; assumption|]. assert (U : unseen m1 (log EvFatal m1)) by (apply log_unseen; reflexivity).
      split; [apply (unseen_sound m1); auto; repeat split|]. intros q IN. apply (unseen_fit m1); auto.
  - destruct ps as [|p ps]; injection E as <- <-.
    + split; [exact S|exact Logic.I].
    + unfold rt_start_one. pose proof (start_asked p m) as A. pose proof (start_ptrs p m) as Q. destruct (start_ctrl H p m) as [y m1]. cbn [snd] in A, Q.
      assert (S1 : sound m1) by (eapply asked_sound; eauto; [reflexivity|]; apply P; now left).
      assert (P1 : forall q, In q ps -> fit m1 q) by (intros q IN; eapply asked_fit; eauto; [reflexivity|]; apply P; now right).
      destruct y; [split; assumption|]. assert (U : unseen m1 (log EvFatal m1)) by (apply log_unseen; reflexivity).
      split; [apply (unseen_sound m1); auto; repeat split|]. intros q IN. apply (unseen_fit m1); auto.
  - injection E as <- <-. split; [|exact Logic.I]. unfold rt_switch_end. destruct S as [L [X Y]].
    assert (U : unseen m (log EvSwitchDone (set_please false (set_stop_req [] (set_start_req [] m))))).
    { repeat split. intros p. cbn. rewrite callbacks_app. apply app_nil_r. }
    split; [now apply (unseen_life m)|]. split; [intros x e IN; apply (unseen_fit m); [exact U|eauto]|intros p []].
Qed.

(* ------------------------------------------------------------------ the other threads *)
(** nothing but lists and requests changed, and these name only old controllers *)
Definition fewer (m m' : mgr) : Prop :=
  (forall b e, In e (lists m' b) -> exists b', In e (lists m b')) /\
  (forall p, In p (start_req m' ++ stop_req m') -> In p (start_req m ++ stop_req m) \/ exists b e, In e (lists m b) /\ e_ptr e = p).
Lemma fewer_sound m m' : unseen m m' -> fewer m m' -> sound m -> sound m'.
Proof.
  intros U (A & B) (L & X & Y). split; [now apply (unseen_life m)|]. split.
  - intros b e IN. apply (unseen_fit m); [exact U|]. destruct (A b e IN) as (b' & IN'). eauto.
  - intros p IN. apply (unseen_fit m); [exact U|]. destruct (B p IN) as [IN'|(b & e & IN' & <-)]; eauto.
Qed.
Lemma upd_in {A} (f : bool -> list A) x l b e : In e (upd f x l b) -> In e l \/ In e (f b).
Proof. unfold upd. destruct (Bool.eqb b x); auto. Qed.
Lemma others_in n l e : In e (others n l) -> In e l.
Proof. unfold others. intros IN. apply filter_In in IN. apply IN. Qed.

(** destroyed or not yet created stays so, except for a fresh object *)
Definition no_return (m m' : mgr) : Prop := forall b e, In e (lists m' b) -> (exists b', In e (lists m b')) \/ next m <= e_ptr e.
Definition only_new (m m' : mgr) : Prop :=
  next m <= next m' /\ (forall p, p < next m -> callbacks_of p (trace m') = callbacks_of p (trace m)) /\
  (forall p, p < next m -> state_of m' p = state_of m p).

Lemma load_sound env n (m : mgr) : sound m ->
  match load_body H env n m with Rejected m' | Thrown m' | Ready m' => sound m' /\ no_return m m' /\ only_new m m' | Broken => True end.
Proof.
  intros S. assert (SAME : forall m' : mgr, heap m' = heap m -> trace m' = trace m -> next m' = next m -> start_req m' = start_req m -> stop_req m' = stop_req m ->
     (forall b e, In e (lists m' b) -> exists b', In e (lists m b')) -> sound m' /\ no_return m m' /\ only_new m m').
  { intros m' E1 E2 E3 E4 E5 E6. split; [|split].
    - apply (fewer_sound m); auto.
      + split; [exact E3|]. split; [|intros p; now rewrite E2]. intros p. unfold state_of. now rewrite E1.
      + split; [exact E6|]. rewrite E4, E5. auto.
    - intros b e IN. left. eauto.
    - split; [lia|]. split; intros p _; [now rewrite E2|]. unfold state_of. now rewrite E1. }
  unfold load_body. cbv zeta. set (f := free_list m). set (from := lists m (cur m)).
  destruct (existsb _ _).
  { apply SAME; try reflexivity. cbn. intros b e IN. apply upd_in in IN. destruct IN as [[]|IN]. apply upd_in in IN. destruct IN; [exists (cur m)|exists b]; assumption. }
  destruct (negb (pe_node_ok env n)).
  { apply SAME; try reflexivity. cbn. intros b e IN. apply upd_in in IN. destruct IN; [exists (cur m)|exists b]; assumption. }
  destruct (construct env n) as [[[ty pr]|]|].
  2: { apply SAME; try reflexivity. cbn. intros b e IN. apply upd_in in IN. destruct IN as [[]|IN]. apply upd_in in IN. destruct IN; [exists (cur m)|exists b]; assumption. }
  2: { apply SAME; try reflexivity. cbn. intros b e IN. apply upd_in in IN. destruct IN; [exists (cur m)|exists b]; assumption. }
  set (m1 := set_lists (upd (lists m) f from) m). set (prov := Some (as_provider m1)).
  destruct (initRequest prov pr CONSTRUCTED no_deps) as [[[ir cbs] s] d] eqn:IR. set (p0 := next m).
  change (next m1) with p0.
  set (m2 := set_next (Datatypes.S p0) (set_heap (upd_heap (heap m1) p0 (mkObj ty s d new_stats)) m1)).
  destruct (calls_trace p0 cbs m2) as (T2 & H2 & N2). destruct (calls_ptrs p0 cbs m2) as (L2 & Q2 & R2). set (m3 := calls H p0 cbs m2) in *.
  assert (FRESH : callbacks_of p0 (trace m) = []).
  { destruct S as [L _]. specialize (L p0). unfold life_at in L. unfold p0 in *. now rewrite Nat.ltb_irrefl in L. }
  assert (ST : forall q, q < p0 -> state_of m3 q = state_of m q /\ co_deps (heap m3 q) = co_deps (heap m q)).
  { intros q LT. unfold state_of. rewrite H2. cbn. unfold upd_heap. destruct (Nat.eqb_spec q p0); [lia|]. split; reflexivity. }
  assert (TR : forall q, q <> p0 -> callbacks_of q (trace m3) = callbacks_of q (trace m)).
  { intros q NE. rewrite T2, callbacks_app, callbacks_map. destruct (Nat.eqb_spec p0 q); [congruence|]. apply app_nil_r. }
  assert (TP : callbacks_of p0 (trace m3) = cbs).
  { rewrite T2, callbacks_app, callbacks_map, Nat.eqb_refl. change (trace m2) with (trace m). now rewrite FRESH. }
  assert (SP : state_of m3 p0 = s /\ co_deps (heap m3 p0) = d).
  { unfold state_of. rewrite H2. cbn. unfold upd_heap. rewrite Nat.eqb_refl. split; reflexivity. }
  assert (NX : next m3 = Datatypes.S p0) by (rewrite N2; reflexivity).
  assert (LIFE : life m3).
  { intros q. unfold life_at. rewrite NX. destruct S as [L _]. specialize (L q). unfold life_at in L. fold p0 in L. destruct (Nat.ltb_spec q (Datatypes.S p0)) as [LT|GE].
    - destruct (Nat.eq_dec q p0) as [->|NE].
      + exists prov, pr, []. split; [reflexivity|]. unfold new_obj. cbn [do_requests do_request]. rewrite IR. rewrite app_nil_r. destruct SP as [-> ->]. rewrite TP. eexists. reflexivity.
      + assert (LT' : q < p0) by lia. apply Nat.ltb_lt in LT'. rewrite LT' in L. apply Nat.ltb_lt in LT'. destruct L as (prov' & pr' & rs & F & bs & E). exists prov', pr', rs.
        split; [exact F|]. exists bs. destruct (ST q LT') as [-> ->]. now rewrite (TR q NE).
    - rewrite TR by lia. destruct (Nat.ltb_spec q p0); [lia|exact L]. }
  assert (LS : forall b e, In e (lists m3 b) -> exists b', In e (lists m b')).
  { intros b e IN. rewrite L2 in IN. cbn in IN. apply upd_in in IN. destruct IN; [exists (cur m)|exists b]; assumption. }
  assert (OLD : forall b e, In e (lists m b) -> fit m3 (e_ptr e)).
  { intros b e IN. destruct S as [_ [X _]]. destruct (X b e IN) as [A B]. split; [rewrite NX; unfold p0; lia|]. now rewrite (proj1 (ST _ A)). }
  assert (REQ : forall p, In p (start_req m3 ++ stop_req m3) -> fit m3 p).
  { intros p IN. rewrite Q2, R2 in IN. destruct S as [_ [_ Y]]. destruct (Y p IN) as [A B]. split; [rewrite NX; unfold p0; lia|]. now rewrite (proj1 (ST _ A)). }
  (* what remains differs from m3 in lists and schedules only *)
  assert (FIN : forall m' : mgr, heap m' = heap m3 -> trace m' = trace m3 -> next m' = next m3 -> start_req m' = start_req m3 -> stop_req m' = stop_req m3 ->
     (forall b e, In e (lists m' b) -> (exists b', In e (lists m b')) \/ (e_ptr e = p0 /\ s <> CONSTRUCTED)) -> sound m' /\ no_return m m' /\ only_new m m').
  { intros m' E1 E2 E3 E4 E5 E6.
    assert (U : unseen m3 m') by (split; [exact E3|]; split; [intros p; unfold state_of; now rewrite E1|intros p; now rewrite E2]).
    split; [|split].
    - split; [now apply (unseen_life m3)|]. split.
      + intros b e IN. apply (unseen_fit m3); [exact U|]. destruct (E6 b e IN) as [(b' & IN')|[-> NC]]; [eauto|]. split; [rewrite NX; lia|]. now rewrite (proj1 SP).
      + intros p IN. rewrite E4, E5 in IN. apply (unseen_fit m3); [exact U|]. now apply REQ.
    - intros b e IN. destruct (E6 b e IN) as [X|[-> _]]; [now left|right]. unfold p0. lia.
    - split; [rewrite E3, NX; unfold p0; lia|]. split; intros p LT; [rewrite E2; apply TR; unfold p0; lia|]. unfold state_of. rewrite E1. apply (ST p LT). }
  destruct ir as [[]|].
  - assert (NC : s <> CONSTRUCTED).
    { unfold initRequest in IR. destruct (run_init prov pr no_deps) as [[[]|] d']; clear - IR; intros ->; inversion IR. }
    destruct (scheduleControllers _ _) as [sc|sc| |]; try exact Logic.I; apply FIN; try reflexivity; cbn; intros b e IN.
    + apply upd_in in IN. destruct IN as [IN|IN]; [|left; eauto]. apply in_app_or in IN. destruct IN as [IN|[<-|[]]]; [left; exists (cur m); exact IN|right; split; [reflexivity|exact NC]].
    + apply upd_in in IN. destruct IN as [[]|IN]. left; eauto.
  - apply FIN; try reflexivity; cbn; intros b e IN. apply upd_in in IN. destruct IN as [[]|IN]. left; eauto.
  - apply FIN; try reflexivity; cbn; intros b e IN. apply upd_in in IN. destruct IN as [[]|IN]. left; eauto.
Qed.
Lemma unload_sound n (m : mgr) : sound m ->
  match unload_body n m with Rejected m' | Thrown m' | Ready m' => sound m' /\ no_return m m' /\ only_new m m' | Broken => True end.
Proof.
  intros S. assert (SAME : forall m' : mgr, heap m' = heap m -> trace m' = trace m -> next m' = next m -> start_req m' = start_req m -> stop_req m' = stop_req m ->
     (forall b e, In e (lists m' b) -> exists b', In e (lists m b')) -> sound m' /\ no_return m m' /\ only_new m m').
  { intros m' E1 E2 E3 E4 E5 E6. split; [|split].
    - apply (fewer_sound m); auto.
      + split; [exact E3|]. split; [|intros p; now rewrite E2]. intros p. unfold state_of. now rewrite E1.
      + split; [exact E6|]. rewrite E4, E5. auto.
    - intros b e IN. left. eauto.
    - split; [lia|]. split; intros p _; [now rewrite E2|]. unfold state_of. now rewrite E1. }
  unfold unload_body. cbv zeta. rewrite transfer_spec.
  destruct (existsb (depends_on _ _) _).
  { apply SAME; try reflexivity. cbn. intros b e IN. apply upd_in in IN. destruct IN as [[]|IN]. eauto. }
  destruct (existsb _ _).
  { apply SAME; try reflexivity. cbn. intros b e IN. apply upd_in in IN. destruct IN as [[]|IN]. eauto. }
  destruct (existsb _ _).
  2: { apply SAME; try reflexivity. cbn. intros b e IN. apply upd_in in IN. destruct IN as [[]|IN]. eauto. }
  destruct (scheduleControllers _ _); try exact Logic.I; apply SAME; try reflexivity; cbn; intros b e IN; apply upd_in in IN; destruct IN as [IN|IN]; try (destruct IN; fail); eauto.
  apply others_in in IN. eauto.
Qed.
Lemma resolve_in (m : mgr) st ns ps p : collect m st ns = Some ps -> In p ps -> exists e, In e (lists m (cur m)) /\ e_ptr e = p.
Proof.
  revert ps. induction ns as [|n ns IH]; intros ps E IN; cbn in E; [injection E as <-; destruct IN|].
  unfold getControllerByName in E. destruct (find_entry n (lists m (cur m))) as [e|] eqn:F; cbn [option_map] in E.
  - destruct (collect m st ns) as [qs|] eqn:C; [|discriminate]. injection E as <-. destruct IN as [<-|IN]; [|eapply IH; eauto].
    exists e. split; [|reflexivity]. apply find_some in F. apply F.
  - destruct st; [discriminate|]. eapply IH; eauto.
Qed.
Lemma switch_sound a b z (m : mgr) : sound m ->
  match switch_body a b z m with Rejected m' | Thrown m' | Ready m' => sound m' /\ no_return m m' /\ only_new m m' | Broken => True end.
Proof.
  intros S. assert (SAME : forall m' : mgr, heap m' = heap m -> trace m' = trace m -> next m' = next m -> lists m' = lists m ->
     (forall p, In p (start_req m' ++ stop_req m') -> In p (start_req m ++ stop_req m) \/ exists b e, In e (lists m b) /\ e_ptr e = p) -> sound m' /\ no_return m m' /\ only_new m m').
  { intros m' E1 E2 E3 E4 E5. split; [|split].
    - apply (fewer_sound m); auto.
      + split; [exact E3|]. split; [|intros p; now rewrite E2]. intros p. unfold state_of. now rewrite E1.
      + split; [|exact E5]. rewrite E4. eauto.
    - intros x e IN. rewrite E4 in IN. left. eauto.
    - split; [lia|]. split; intros p _; [now rewrite E2|]. unfold state_of. now rewrite E1. }
  unfold switch_body. cbv zeta. set (st := Z.eqb _ STRICT). destruct (collect m st b) as [ps|] eqn:C1.
  2: { apply SAME; try reflexivity. cbn. intros p IN. rewrite app_nil_r in IN. left. apply in_or_app. now left. }
  match goal with |- context [collect ?x st a] => set (m1 := x) end. destruct (collect m1 st a) as [qs|] eqn:C2.
  2: { apply SAME; try reflexivity. cbn. intros p []. }
  apply SAME; try reflexivity. unfold m1. cbn. intros p IN. apply in_app_or in IN. destruct IN as [IN|IN]; apply in_app_or in IN; destruct IN as [IN|IN]; try (left; apply in_or_app; tauto).
  - right. destruct (resolve_in _ _ _ _ _ C2 IN) as (e & X & Y). exists (cur m), e. split; [exact X|exact Y].
  - right. destruct (resolve_in _ _ _ _ _ C1 IN) as (e & X & Y). exists (cur m), e. split; [exact X|exact Y].
Qed.

(* ------------------------------------------------------------------ any step *)
Definition fine_c (c : config) : Prop := fine (rt c) (mg c).
Lemma pcb_only m m' pc : only_new m m' -> pcb m pc -> pcb m' pc.
Proof.
  intros (N & _ & S). assert (F : forall p, fit m p -> fit m' p) by (intros p [A B]; split; [lia|]; now rewrite S).
  destruct pc; cbn; auto.
Qed.
(** a step of another thread *)
Definition by_thread (m m' : mgr) : Prop := sound m' /\ no_return m m' /\ only_new m m'.
Lemma by_thread_same (m m' : mgr) : heap m' = heap m -> (forall p, callbacks_of p (trace m') = callbacks_of p (trace m)) -> next m' = next m -> start_req m' = start_req m -> stop_req m' = stop_req m ->
  (forall b e, In e (lists m' b) -> exists b', In e (lists m b')) -> sound m -> by_thread m m'.
Proof.
  intros E1 E2 E3 E4 E5 E6 S. split; [|split].
  - apply (fewer_sound m); auto.
    + split; [exact E3|]. split; [|exact E2]. intros p. unfold state_of. now rewrite E1.
    + split; [exact E6|]. rewrite E4, E5. auto.
  - intros b e IN. left. eauto.
  - split; [lia|]. split; intros p _; [now rewrite E2|]. unfold state_of. now rewrite E1.
Qed.
Lemma th_by k c c' : sound (mg c) -> th_step H k (thr c k) c = Some (Ok c') -> by_thread (mg c) (mg c') /\ rt c' = rt c.
Proof.
  intros A E.
  assert (ID : by_thread (mg c) (mg c)) by (apply by_thread_same; auto; eauto).
  assert (LG : forall e (m : mgr), (forall p, callbacks_of p [e] = []) -> by_thread (mg c) m -> by_thread (mg c) (log e m)).
  { intros e m NE (X & Y & Z1 & Z2 & Z3). split; [|split; [exact Y|split; [exact Z1|split; [|exact Z3]]]].
    - apply (unseen_sound m); [now apply log_unseen|repeat split|exact X].
    - intros p LT. cbn. rewrite callbacks_app, NE, app_nil_r. now apply Z2. }
  destruct (thr c k) as [|pr|srv pr|srv cl kk|srv cl kk|srv cl kk|srv cl kk|srv cl kk|srv cl kk|srv cl kk|srv cl kk|srv cl kk|srv kk|srv kk] eqn:Ht; cbn [th_step] in E.
  - discriminate.
  - destruct (srv_lock c); [discriminate|]. injection E as <-. split; [exact ID|reflexivity].
  - destruct pr; try discriminate; try (destruct (ctl_lock c); [discriminate|]); injection E as <-; try (split; [exact ID|reflexivity]).
    + destruct srv; (split; [exact ID|reflexivity]).
    + split; [|reflexivity]. apply LG; [reflexivity|exact ID].
  - destruct (ctl_lock c); [discriminate|]. injection E as <-. split; [exact ID|reflexivity].
  - injection E as <-. split; [exact ID|reflexivity].
  - injection E as <-. destruct (negb (rosok c)); (split; [exact ID|reflexivity]).
  - destruct cl as [env n|n|a b s]; cbn [body] in E.
    + pose proof (load_sound env n (mg c) A) as B. destruct (load_body H env n (mg c)); try discriminate; injection E as <-; (split; [exact B|reflexivity]).
    + pose proof (unload_sound n (mg c) A) as B. destruct (unload_body n (mg c)); try discriminate; injection E as <-; (split; [exact B|reflexivity]).
    + pose proof (switch_sound a b s (mg c) A) as B. destruct (switch_body a b s (mg c)) as [m'|m'|m'|]; try discriminate; injection E as <-; (split; [|reflexivity]); try exact B.
      apply LG; [reflexivity|exact B].
  - destruct (pub_lock c); [discriminate|]. injection E as <-. split; [exact ID|reflexivity].
  - injection E as <-. split; [|reflexivity]. apply by_thread_same; auto; cbn; eauto.
  - injection E as <-. split; [exact ID|reflexivity].
  - injection E as <-. destruct (negb (rosok c)); (split; [exact ID|reflexivity]).
  - injection E as <-. split; [|reflexivity]. apply by_thread_same; auto; cbn. intros b e IN. apply upd_in in IN. destruct IN as [[]|IN]. eauto.
  - injection E as <-. destruct (rosok c && please (mg c)); (split; [|reflexivity]); [exact ID|]. apply LG; [reflexivity|exact ID].
  - injection E as <-. destruct (negb (rosok c)); (split; [exact ID|reflexivity]).
Qed.
Lemma by_thread_fine c c' : by_thread (mg c) (mg c') -> rt c' = rt c -> fine_c c -> fine_c c'.
Proof. intros (S & _ & O) R [_ P]. split; [exact S|]. rewrite R. eapply pcb_only; eauto. Qed.
Lemma do_rt_fine a b (c c' : config) : fine_c c -> do_rt H a b c = Ok c' -> fine_c c'.
Proof.
  intros F E. unfold do_rt in E. destruct (rt_step H _ a b (rt c) (mg c)) as [[m' pc']| | |] eqn:E1; cbn [bind] in E; try discriminate. injection E as <-.
  unfold fine_c. cbn [mg rt]. eapply rt_fine; eauto.
Qed.
Lemma step_fine l c c' : fine_c c -> bstep H l c = Some (Ok c') -> fine_c c'.
Proof.
  intros F E. destruct l as [a b|k|k srv pr| | | |f]; cbn [bstep] in E.
  - injection E as E. eapply do_rt_fine; eauto.
  - destruct (th_by k c c' (proj1 F) E) as [B R]. eapply by_thread_fine; eauto.
  - destruct (thr c k); try discriminate. injection E as <-. exact F.
  - destruct (pub_lock c); [discriminate|]. injection E as <-. exact F.
  - destruct (pub_lock c) as [[| |]|]; try discriminate; injection E as <-; exact F.
  - injection E as <-. exact F.
  - injection E as <-. destruct F as [S P]. split; [apply (unseen_sound (mg c)); auto; repeat split|]. exact P.
Qed.
Lemma runs_fine ls : forall c c', fine_c c -> runs H ls c = Some c' -> fine_c c'.
Proof.
  induction ls as [|l ls IH]; intros c c' F E; cbn in E; [now injection E as <-|].
  destruct (bstep H l c) as [[c1| | |]|] eqn:B; try discriminate. eapply IH; [|exact E]. eapply step_fine; eauto.
Qed.
Lemma steps_fine c ls c' : steps H c ls c' -> fine_c c -> fine_c c'.
Proof. intros S F. induction S as [|c ls c1 l c2 S IH E]; [exact F|]. exact (step_fine l c1 c2 (IH F) E). Qed.
Lemma quiet_fine m : sound m -> fine_c (quiet m).
Proof. intros S. split; [exact S|exact Logic.I]. Qed.

(** level A: every reachable state *)
Lemma update_sound l1 l2 (m m' : mgr) : sound m -> update H l1 l2 m = Ok m' -> sound m'.
Proof.
  intros S U. assert (E : update H (l1 && pub_free (quiet m)) l2 (mg (quiet m)) = Ok m') by (destruct l1; exact U).
  apply (cycle_is_update H l1 l2 (quiet m) m' eq_refl) in E. destruct E as (c' & (_ & _ & n & R & _) & <-).
  apply (runs_fine _ _ _ (quiet_fine m S) R).
Qed.
Lemma reach_sound m : reachable H m -> sound m.
Proof.
  induction 1 as [m IN|m o a m' R IH S].
  - destruct IN as (L & _ & _ & _ & R1 & R2 & _ & _ & T & N). split.
    + intros p. unfold life_at. rewrite N, T. reflexivity.
    + split; [intros b e IN; rewrite L in IN; destruct IN|]. rewrite R1, R2. intros p [].
  - remember (Ok (a, m')) as r eqn:E. destruct S as [m env n P|m n P|m st sp k P|m l1 l2|m f|m P L].
    + unfold loadController in E. pose proof (load_sound env n m IH) as B. destruct (load_body H env n m); try discriminate; injection E as <- <-; try apply B.
      apply (fewer_sound m0); [repeat split| |apply B]. split; [|auto]. cbn. intros b e IN. apply upd_in in IN. destruct IN as [[]|IN]. eauto.
    + unfold unloadController in E. pose proof (unload_sound n m IH) as B. destruct (unload_body n m); try discriminate; injection E as <- <-; try apply B.
      apply (fewer_sound m0); [repeat split| |apply B]. split; [|auto]. cbn. intros b e IN. apply upd_in in IN. destruct IN as [[]|IN]. eauto.
    + pose proof (switch_sound st sp k m IH) as B. destruct (switch_body st sp k m); try discriminate; injection E as <- <-; apply B.
    + destruct (update H l1 l2 m) as [m2| | |] eqn:U; cbn [bind] in E; try discriminate. injection E as <- <-. eapply update_sound; eauto.
    + injection E as <- <-. apply (unseen_sound m); auto; repeat split.
    + injection E as <- <-. apply (unseen_sound m); auto; [|repeat split]. now apply log_unseen.
Qed.
End LC.
