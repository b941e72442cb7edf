(** How one step of an interleaving acts on the world, for arbitrary hooks. *)
From Coq Require Import List String Arith Bool ZArith Lia.
From Verif.Model Require Import Base Num Joint Hardware Transmission Scheduler Controller Manager ManagerConc Robot System.
From Verif.Spec Require Import SystemSpec.
From Verif.Proofs Require Import WorldSteps.
Import ListNotations.

Section Conc.
Context {W : Type} (H : hooks W).
Notation mgr := (mgr W).
Notation config := (config W).

(** the callbacks a loading thread runs *)
Definition is_init (c : ptr * callback) : Prop := exists b, snd c = CbInit b.

(** callbacks, clock readings, no publication *)
Definition moved (cbs : list (ptr * callback)) (m m' : mgr) : Prop := acts H cbs (world m) (world m') /\ same_pub m m'.

(** what a realtime step at [pc] that ends at [pc'] does to the world *)
Definition rt_world (lock2 : bool) (pc pc' : rpc) (m m' : mgr) : Prop :=
  match pc with
  | RBegin => acts H [] (h_zero H (h_propagate H (snd (h_now H (world m))))) (world m') /\ same_pub m m' /\ (pc' = RRestart 0 \/ pc' = RUpdate 0)
  | RRestart i => (exists cbs, moved cbs m m') /\ (pc' = RRestarting i \/ pc' = RRestart (S i) \/ pc' = RUpdate 0)
  | RRestarting i => (exists cbs, moved cbs m m') /\ pc' = RRestart (S i)
  | RUpdate i => ((exists cbs, moved cbs m m') /\ pc' = RUpdate (S i)) \/
                 (world m' = h_enforce H (snd (h_now H (world m))) /\ same_pub m m' /\ pc' = REffort)
  | REffort => acts H [] (h_effort H (world m)) (world m') /\ same_pub m m' /\ pc' = RPub1
  | RPub1 => exists t, h_now H (world m) = (t, world m') /\ same_pub m m' /\
               (pc' = RPub2 \/ (pc' = RFill t /\ (last_mech m + h_per_mech H < t)%Z))
  | RFill t => catch_up (catch_up_fuel (last_mech m) t) (last_mech m) (h_per_mech H) t = Ok (last_mech m') /\
               acts H [] (h_pub_mech H t (world m)) (world m') /\ last_js m' = last_js m /\ pc' = RPub2
  | RPub2 => attempt H lock2 (h_pub_js H) (last_js m) (h_per_js H) (last_js m') (world m) (world m') /\ last_mech m' = last_mech m /\ pc' = RSwitch
  | RIdle => moved [] m m' /\ exists b, pc' = RGot b
  | RGot _ => moved [] m m' /\ pc' = RBegin
  | RSwitch | RStop _ | RStart _ | REnd =>
      (exists cbs, no_update cbs /\ moved cbs m m') /\ match pc' with RIdle | RStop _ | RStart _ | REnd => True | _ => False end
  end.

Lemma moved_nil (m m' : mgr) : world m' = world m -> same_pub m m' -> moved [] m m'.
Proof. intros E S. split; [rewrite E; constructor|exact S]. Qed.

Lemma rt_step_world free a b pc m m' pc' : rt_step H free a b pc m = Ok (m', pc') -> rt_world b pc pc' m m'.
Proof.
  destruct pc as [|x| |i|i|i| | |t| | |ps|ps|]; cbn [rt_step rt_world]; intros E.
  - injection E as <- <-. split; [apply moved_nil; [reflexivity|split; reflexivity]|eauto].
  - injection E as <- <-. split; [apply moved_nil; [reflexivity|split; reflexivity]|reflexivity].
  - assert (PRE : acts H [] (h_zero H (h_propagate H (snd (h_now H (world m))))) (world (rt_pre H m)) /\ same_pub m (rt_pre H m)).
    { unfold rt_pre, now. destruct (h_now H (world m)) as [t w]. cbn [snd]. cbn [world on_world set_world log set_trace].
      destruct (h_now H (h_zero H (h_propagate H w))) as [t1 w1] eqn:N2. cbn [world set_world].
      split; [apply acts_now; rewrite N2; apply acts_nil|split; reflexivity]. }
    destruct PRE as [A B]. destruct (rt_must_restart H (rt_pre H m)); injection E as <- <-; (split; [exact A|split; [|auto]]); destruct B; split; assumption.
  - destruct (rt_list m) as [l| | |]; cbn [bind] in E; try discriminate. destruct (Nat.ltb i (List.length l)).
    + destruct (rt_nth m i) as [e| | |]; cbn [bind] in E; try discriminate. destruct (isRunning _).
      * pose proof (stop_pub H (e_ptr e) m) as B. destruct (stop_ctrl H (e_ptr e) m) as [x m1] eqn:ST. injection E as <- <-.
        destruct (ran_stop H _ _ _ _ ST) as [cbs [_ A]]. split; [exists cbs; split; [exact A|exact B]|auto].
      * injection E as <- <-. split; [exists []; apply moved_nil; [reflexivity|split; reflexivity]|auto].
    + injection E as <- <-. split; [exists []; apply moved_nil; [reflexivity|split; reflexivity]|auto].
  - destruct (rt_nth m i) as [e| | |]; cbn [bind] in E; try discriminate.
    pose proof (start_pub H (e_ptr e) m) as B. destruct (start_ctrl H (e_ptr e) m) as [x m1] eqn:ST. injection E as <- <-.
    destruct (ran_start H _ _ _ _ ST) as [cbs [_ A]]. split; [exists cbs; split; [exact A|exact B]|auto].
  - destruct (rt_list m) as [l| | |]; cbn [bind] in E; try discriminate. destruct (Nat.ltb i (List.length l)).
    + destruct (rt_update_one H m i) as [m1| | |] eqn:U; cbn [bind] in E; try discriminate. injection E as <- <-. left. split; [|reflexivity].
      unfold rt_update_one in U. destruct (rt_nth m i) as [e| | |]; cbn [bind] in U; try discriminate.
      pose proof (ran_now H m) as [_ R1]. destruct (now H m) as [t0 m0] eqn:N0. cbn [snd] in R1.
      destruct (ran_update H (e_ptr e) m0) as [c2 [_ R2]].
      pose proof (ran_now H (update_ctrl H (e_ptr e) m0)) as [_ R3]. destruct (now H (update_ctrl H (e_ptr e) m0)) as [t1 m3] eqn:N3. cbn [snd] in R3.
      injection U as <-. exists c2. split.
      { rewrite <- (app_nil_l c2), <- (app_nil_r c2). eapply acts_trans; [exact R1|]. eapply acts_trans; [exact R2|exact R3]. }
      assert (S0 : same_pub m m0). { unfold now in N0. destruct (h_now H (world m)). injection N0 as _ <-. split; reflexivity. }
      assert (S1 : same_pub m0 (update_ctrl H (e_ptr e) m0)). { unfold update_ctrl. destruct (updateRequest _) as [cbs s]. apply (calls_pub H (e_ptr e) cbs m0). }
      assert (S3 : same_pub (update_ctrl H (e_ptr e) m0) m3). { unfold now in N3. destruct (h_now H _). injection N3 as _ <-. split; reflexivity. }
      pose proof (same_pub_trans _ _ _ S0 (same_pub_trans _ _ _ S1 S3)) as [Q1 Q2]. split; assumption.
    + injection E as <- <-. right. unfold rt_enforce, now. destruct (h_now H (world m)) as [t w]. cbn. repeat split.
  - injection E as <- <-. unfold rt_send, now. cbv zeta. destruct (h_now H _) as [t w] eqn:N1. cbn in N1 |- *. split; [|split; [split; reflexivity|reflexivity]].
    apply acts_now. rewrite N1. apply acts_nil.
  - unfold now in E. destruct (h_now H (world m)) as [t w] eqn:N1. exists t. unfold mech_due in E. cbn [last_mech set_world] in E.
    destruct (Z.ltb_spec (last_mech m + h_per_mech H) t); cbn [andb] in E; [destruct (free && a)|]; injection E as <- <-;
      (split; [reflexivity|split; [split; reflexivity|auto]]).
  - unfold rt_fill_mech in E.
    destruct (catch_up _ _ _ _) as [last| | |] eqn:C; cbn [bind] in E; try discriminate.
    destruct (rt_list _) as [l| | |]; cbn [bind] in E; try discriminate.
    destruct (fill_stats _ _ _ _ _) as [out| | |]; cbn [bind] in E; try discriminate.
    unfold now in E. cbn [world on_world set_world set_last_mech set_mstats] in E.
    destruct (h_now H (h_pub_mech H t (world m))) as [t2 w2] eqn:N2. injection E as <- <-.
    cbn [last_mech log set_trace set_world set_mstats on_world set_last_mech world last_js]. split; [reflexivity|]. split; [apply acts_now; rewrite N2; apply acts_nil|auto].
  - destruct (publishJointState H b m) as [m1| | |] eqn:J; cbn [bind] in E; try discriminate. injection E as <- <-.
    destruct (js_attempt H b m m1 J) as (A & B & _). auto.
  - destruct (please m); injection E as <- <-; (split; [exists []; split; [constructor|]; apply moved_nil; [reflexivity|split; reflexivity]|exact I]).
  - destruct ps as [|p ps]; injection E as <- <-; (split; [|exact I]); [exists []; split; [constructor|]; apply moved_nil; [reflexivity|split; reflexivity]|].
    unfold rt_stop_one. pose proof (stop_pub H p m) as B. destruct (stop_ctrl H p m) as [x m1] eqn:ST. destruct (ran_stop' H _ _ _ _ ST) as [cbs [[_ A] NU]].
    exists cbs. split; [exact NU|]. destruct x; (split; [exact A|exact B]).
  - destruct ps as [|p ps]; injection E as <- <-; (split; [|exact I]); [exists []; split; [constructor|]; apply moved_nil; [reflexivity|split; reflexivity]|].
    unfold rt_start_one. pose proof (start_pub H p m) as B. destruct (start_ctrl H p m) as [x m1] eqn:ST. destruct (ran_start' H _ _ _ _ ST) as [cbs [[_ A] NU]].
    exists cbs. split; [exact NU|]. destruct x; (split; [exact A|exact B]).
  - injection E as <- <-. split; [exists []; split; [constructor|]; apply moved_nil; [reflexivity|split; reflexivity]|exact I].
Qed.

(** the bodies of the three calls run at most one init callback *)
Lemma body_world cl (m m2 : mgr) : (body H cl m = Rejected m2 \/ body H cl m = Thrown m2 \/ body H cl m = Ready m2) ->
  exists cbs, Forall is_init cbs /\ moved cbs m m2.
Proof.
  assert (NIL : forall m' : mgr, world m' = world m -> same_pub m m' -> exists cbs, Forall is_init cbs /\ moved cbs m m').
  { intros m' A B. exists []. split; [constructor|]. apply moved_nil; auto. }
  destruct cl as [env name|name|st sp k]; cbn [body].
  - unfold load_body.
    repeat match goal with |- context [if ?c then _ else _] => destruct c end;
    try (intros [K|[K|K]]; try discriminate; injection K as <-; apply NIL; [reflexivity|split; reflexivity]).
    destruct (construct env name) as [[[ty pr]|]|];
    try (intros [K|[K|K]]; try discriminate; injection K as <-; apply NIL; [reflexivity|split; reflexivity]).
    destruct (initRequest _ _ _ _) as [[[ir cbs] s] d] eqn:IR.
    assert (IN : Forall (fun k => exists b, k = CbInit b) cbs).
    { unfold initRequest in IR. destruct (run_init _ _ _) as [[[]|] d']; injection IR as _ <- _ _; constructor; eauto. }
    set (m3 := set_next _ _). assert (W3 : world m3 = world m) by reflexivity. assert (P3 : same_pub m m3) by (split; reflexivity). clearbody m3.
    set (p := next (set_lists (upd (lists m) (free_list m) (lists m (cur m))) m)).
    pose proof (ran_calls H p cbs m3) as [_ A]. pose proof (calls_pub H p cbs m3) as B.
    rewrite W3 in A. pose proof (same_pub_trans _ _ _ P3 B) as C.
    assert (D : forall m4 : mgr, world m4 = world (calls H p cbs m3) -> same_pub (calls H p cbs m3) m4 ->
                exists cbs0, Forall is_init cbs0 /\ moved cbs0 m m4).
    { intros m4 W4 Q4. exists (map (fun k => (p, k)) cbs). split.
      - clear - IN. induction IN as [|k cbs E IN IH]; cbn [map]; constructor; auto.
      - split; [rewrite W4; exact A|eapply same_pub_trans; eauto]. }
    destruct ir as [[]|];
    try (intros [K|[K|K]]; try discriminate; injection K as <-; apply D; [reflexivity|split; reflexivity]).
    destruct (scheduleControllers _ _); intros [K|[K|K]]; try discriminate; injection K as <-; apply D; try reflexivity; split; reflexivity.
  - unfold unload_body.
    destruct (existsb _ _); [intros [K|[K|K]]; try discriminate; injection K as <-; apply NIL; [reflexivity|split; reflexivity]|].
    destruct (transfer _ _ _) as [[[] to]|];
    try (intros [K|[K|K]]; try discriminate; injection K as <-; apply NIL; [reflexivity|split; reflexivity]).
    destruct (scheduleControllers _ _); intros [K|[K|K]]; try discriminate; injection K as <-; (apply NIL; [reflexivity|split; reflexivity]).
  - unfold switch_body. cbv zeta.
    destruct (collect m _ sp) as [ps|]; [|intros [K|[K|K]]; try discriminate; injection K as <-; apply NIL; [reflexivity|split; reflexivity]].
    destruct (collect _ _ st) as [qs|]; intros [K|[K|K]]; try discriminate; injection K as <-; apply NIL; try reflexivity; split; reflexivity.
Qed.

Lemma th_step_world k t c c' : th_step H k t c = Some (Ok c') -> rt c' = rt c /\ exists cbs, Forall is_init cbs /\ moved cbs (mg c) (mg c').
Proof.
  assert (NIL : forall m' : mgr, world m' = world (mg c) -> same_pub (mg c) m' -> exists cbs, Forall is_init cbs /\ moved cbs (mg c) m').
  { intros m' A B. exists []. split; [constructor|]. apply moved_nil; auto. }
  assert (SAME : rt c' = rt c -> world (mg c') = world (mg c) -> same_pub (mg c) (mg c') -> rt c' = rt c /\ exists cbs, Forall is_init cbs /\ moved cbs (mg c) (mg c')) by auto.
  intros E. destruct t as [|pr|srv pr|srv cl kk|srv cl kk|srv cl kk|srv cl kk|srv cl kk|srv cl kk|srv cl kk|srv cl kk|srv cl kk|srv kk|srv kk];
    cbn [th_step] in E; try discriminate.
  - destruct (srv_lock c); [discriminate|]. injection E as <-. apply SAME; try reflexivity. split; reflexivity.
  - destruct pr as [| |cl kk|kk|kk|n kk|p kk|pr|r pr]; try discriminate.
    1:{ injection E as <-. destruct srv; apply SAME; try reflexivity; split; reflexivity. }
    2,3: destruct (ctl_lock c); [discriminate|].
    all: injection E as <-; apply SAME; try reflexivity; split; reflexivity.
  - destruct (ctl_lock c); [discriminate|]. injection E as <-. apply SAME; try reflexivity. split; reflexivity.
  - injection E as <-. apply SAME; try reflexivity. split; reflexivity.
  - injection E as <-. destruct (rosok c); cbn [negb]; apply SAME; try reflexivity; split; reflexivity.
  - pose proof (body_world cl (mg c)) as B. destruct (body H cl (mg c)) as [m1|m1|m1|].
    + injection E as <-. split; [reflexivity|]. apply B. auto.
    + destruct (B m1 ltac:(auto)) as (cbs & IN & A & P). destruct cl; injection E as <-; (split; [reflexivity|]); exists cbs; (split; [exact IN|]); (split; [exact A|exact P]).
    + injection E as <-. split; [reflexivity|]. apply B. auto.
    + discriminate.
  - destruct (pub_lock c); [discriminate|]. injection E as <-. apply SAME; try reflexivity. split; reflexivity.
  - injection E as <-. apply SAME; try reflexivity. split; reflexivity.
  - injection E as <-. apply SAME; try reflexivity. split; reflexivity.
  - injection E as <-. destruct (rosok c); cbn [negb]; apply SAME; try reflexivity; split; reflexivity.
  - injection E as <-. apply SAME; try reflexivity. split; reflexivity.
  - injection E as <-. destruct (rosok c && please (mg c)); apply SAME; try reflexivity; split; reflexivity.
  - injection E as <-. destruct (rosok c); cbn [negb]; apply SAME; try reflexivity; split; reflexivity.
Qed.

(** every step of an interleaving *)
Lemma bstep_world l c c' : bstep H l c = Some (Ok c') ->
  match l with
  | LRt _ b => rt_world b (rt c) (rt c') (mg c) (mg c')
  | LEnv f => rt c' = rt c /\ world (mg c') = f (world (mg c)) /\ same_pub (mg c) (mg c')
  | _ => rt c' = rt c /\ exists cbs, Forall is_init cbs /\ moved cbs (mg c) (mg c')
  end.
Proof.
  intros E. destruct l as [a b|k|k srv pr| | | |f]; cbn [bstep] in E.
  - unfold do_rt in E. destruct (rt_step H _ a b (rt c) (mg c)) as [[m' pc']| | |] eqn:R; cbn [bind] in E; try discriminate.
    injection E as <-. cbn [rt mg]. eapply rt_step_world; eauto.
  - eapply th_step_world; eauto.
  - destruct (thr c k); try discriminate. injection E as <-. split; [reflexivity|]. exists []. split; [constructor|]. apply moved_nil; [reflexivity|split; reflexivity].
  - destruct (pub_lock c); [discriminate|]. injection E as <-. split; [reflexivity|]. exists []. split; [constructor|]. apply moved_nil; [reflexivity|split; reflexivity].
  - destruct (pub_lock c) as [[]|]; try discriminate. injection E as <-. split; [reflexivity|]. exists []. split; [constructor|]. apply moved_nil; [reflexivity|split; reflexivity].
  - injection E as <-. split; [reflexivity|]. exists []. split; [constructor|]. apply moved_nil; [reflexivity|split; reflexivity].
  - injection E as <-. split; [reflexivity|]. split; [reflexivity|split; reflexivity].
Qed.
End Conc.
