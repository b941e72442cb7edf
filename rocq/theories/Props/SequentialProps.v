(** C75: without interference the interleaved model of the code behaves like the model that executes calls and cycles
    one at a time.  (The theorems about sequential use, C06-C20, speak of the second one; C16-C29 of the first.) *)
From Coq Require Import List String Arith Bool ZArith Lia.
From Verif.Model Require Import Base Scheduler Controller Manager ManagerConc.
From Verif.Spec Require Import ManagerSpec ConcSpec SequentialSpec.
From Verif.Proofs Require Import ManagerProofs ManagerInv ConcBase ConcInv ConcProgress Sequential.
From Verif.Props Require Import ManagerProps.
Import ListNotations.
Open Scope string_scope.
Open Scope list_scope.

Section Sequential.
Context {W : Type} (H : hooks W).
Notation mgr := (mgr W).
Notation config := (config W).

(** One undisturbed cycle is exactly one sequential update(): it ends iff the sequential one does, with the same manager,
    and leaves locks and clients alone. *)
Theorem C75_cycle_is_update : forall a b (c : config) m', rt c = RIdle ->
  (update H (a && pub_free c) b (mg c) = Ok m' <-> exists c', whole_cycle H a b c c' /\ same_rest c c' /\ mg c' = m').
Proof.
  intros a b c m' R. rewrite (cycle_is_update H a b c m' R). split; intros (c' & A & B); exists c'; [|tauto].
  repeat split; try apply A; auto; try apply (cycle_same_rest H a b c c' A).
Qed.

Lemma th_at k (c : config) t : thr c k = t -> bstep H (LTh k) c = th_step H k t c.
Proof. intros <-. reflexivity. Qed.
Lemma thr_here k t (c : config) : thr (with_thr k t c) k = t.
Proof. cbn. unfold set_thr. now rewrite Nat.eqb_refl. Qed.

Lemma only_app k a b ls ls' : only (W := W) k a b ls -> only k a b ls' -> only k a b (ls ++ ls').
Proof. intros A B l I. apply in_app_or in I. destruct I; auto. Qed.
Lemma only_rts k a b n : only (W := W) k a b (repeat (LRt a b) n).
Proof. intros l I. apply repeat_spec in I. auto. Qed.
Lemma only_th k a b n : only (W := W) k a b (repeat (LTh k) n).
Proof. intros l I. apply repeat_spec in I. auto. Qed.

(** the state after a cycle that follows some first steps *)
Lemma close k a b (c c1 : config) ls srv pr m1 m2 : only k a b ls -> runs H ls c = Some c1 -> rt c1 = RIdle -> pub_lock c1 = None -> mg c1 = m1 ->
  thr c1 k = TProg srv pr -> beside k c c1 -> settled c -> update H a b m1 = Ok m2 ->
  exists ls' c', only k a b ls' /\ runs H ls' c = Some c' /\ thr c' k = TProg srv pr /\ mg c' = m2 /\ beside k c c' /\ settled c'.
Proof.
  intros ON RN R P M T (B1 & B2 & B3 & B4 & B5) (_ & S2 & S3 & S4 & _) U. subst m1. destruct (whole H a b c1 m2 R P U) as (n & c' & RN' & R' & M' & (T' & X1 & X2 & X3 & X4)).
  destruct (update_settles H _ _ _ _ U) as (V1 & V2 & V3).
  exists (ls ++ repeat (LRt a b) n), c'. split; [apply only_app; auto using only_rts|]. split; [rewrite runs_app, RN; exact RN'|].
  split; [now rewrite T'|]. split; [exact M'|]. split; [repeat split; try congruence; intros j J; rewrite T'; auto|].
  repeat split; try congruence. right. congruence.
Qed.

(** A load or unload request of one client, nobody else interfering: together with the next cycle it has exactly the
    effect and the answer of the sequential call followed by a sequential update(). *)
Theorem C75_load_unload_then_cycle : forall (c : config) k srv cl kk a b ans m1 m2,
  (match cl with CSwitch _ _ _ => False | _ => True end) ->
  settled c -> thr c k = TProg srv (PCall cl kk) ->
  in_one_piece H a b cl (mg c) = Ok (ans, m1) -> update H a b m1 = Ok m2 ->
  exists ls c', only k a b ls /\ runs H ls c = Some c' /\ thr c' k = TProg srv (kk ans) /\ mg c' = m2 /\ beside k c c' /\ settled c'.
Proof.
  intros c k srv cl kk a b ans m1 m2 NS ST TH CALL UP. pose proof ST as (S1 & S2 & S3 & S4 & S5 & S6).
  assert (FI : free_in_use (mg c) = false).
  { unfold free_in_use, free_list. destruct S6 as [-> | ->]; [reflexivity|]. destruct (cur (mg c)); reflexivity. }
  (* up to the body *)
  set (c1 := with_thr k (TLock srv cl kk) c).
  set (c2 := with_thr k (TWait1 srv cl kk) (with_ctl (Some k) c1)).
  set (c3 := with_thr k (TBody srv cl kk) c2).
  assert (E1 : bstep H (LTh k) c = Some (Ok c1)) by (rewrite (th_at _ _ _ TH); reflexivity).
  assert (E2 : bstep H (LTh k) c1 = Some (Ok c2)).
  { rewrite (th_at k c1 (TLock srv cl kk) (thr_here _ _ _)). cbn [th_step]. change (ctl_lock c1) with (ctl_lock c). rewrite S2. destruct cl; [reflexivity|reflexivity|contradiction]. }
  assert (E3 : bstep H (LTh k) c2 = Some (Ok c3)).
  { rewrite (th_at k c2 (TWait1 srv cl kk) (thr_here _ _ _)). cbn [th_step]. change (rosok c2) with (rosok c). change (mg c2) with (mg c). rewrite FI, andb_false_r. reflexivity. }
  assert (TO : forall j t x, j <> k -> set_thr x k t j = x j) by (intros j t x J; unfold set_thr; destruct (Nat.eqb_spec j k); [contradiction|reflexivity]).
  assert (OTH : forall j, j <> k -> thr c3 j = thr c j) by (intros j J; cbn; rewrite !TO; auto).
  assert (CALL' : match body H cl (mg c) with
    | Rejected m' => Ok (Returned false, m') | Thrown m' => Ok (Exception, m') | Ready m' => Ok (Returned true, commit m') | Broken => UB end = Ok (ans, m1)).
  { destruct cl; [exact CALL|exact CALL|contradiction]. }
  assert (R3 : forall ls, runs H (LTh k :: LTh k :: LTh k :: ls) c = runs H ls c3).
  { intros ls. rewrite (runs_one H _ _ _ E1), (runs_one H _ _ _ E2), (runs_one H _ _ _ E3). reflexivity. }
  assert (B3 : bstep H (LTh k) c3 = match body H cl (mg c) with
    | Rejected m' => Some (Ok (ret k srv (kk (Returned false)) (with_mg m' c3))) | Thrown m' => Some (Ok (ret k srv (kk Exception) (with_mg m' c3)))
    | Ready m' => Some (Ok (with_thr k (TPub srv cl kk) (with_mg m' c3))) | Broken => Some UB end).
  { rewrite (th_at k c3 (TBody srv cl kk) (thr_here _ _ _)). cbn [th_step]. change (mg c3) with (mg c). destruct (body H cl (mg c)); try reflexivity. destruct cl; [reflexivity|reflexivity|contradiction]. }
  destruct (body H cl (mg c)) as [m'|m'|m'|] eqn:BD; try discriminate.
  - injection CALL' as <- <-.
    apply (close k a b c (ret k srv (kk (Returned false)) (with_mg m' c3)) (repeat (LTh k) 4) srv _ m'); auto using only_th.
    + cbn [repeat]. rewrite R3, (runs_one H _ _ _ B3). reflexivity.
    + apply thr_here.
    + repeat split; auto. intros j J. cbn. rewrite !TO; auto.
  - injection CALL' as <- <-.
    set (c4 := with_thr k (TPub srv cl kk) (with_mg m' c3)) in *.
    set (c5 := with_thr k (TFlip srv cl kk) (with_pub (Some (OThread k)) c4)).
    set (c6 := with_thr k (TWait2 srv cl kk) (with_mg (flip (resize_stats m')) c5)).
    assert (E5 : bstep H (LTh k) c4 = Some (Ok c5)).
    { rewrite (th_at k c4 (TPub srv cl kk) (thr_here _ _ _)). cbn [th_step]. change (pub_lock c4) with (pub_lock c). rewrite S3. reflexivity. }
    assert (E6 : bstep H (LTh k) c5 = Some (Ok c6)) by (rewrite (th_at k c5 (TFlip srv cl kk) (thr_here _ _ _)); reflexivity).
    assert (KEEP : cur m' = cur (mg c) /\ used m' = used (mg c)).
    { clear -BD NS. destruct cl as [env name|name|]; [| |contradiction]; cbn [body] in BD.
      - unfold load_body in BD. destruct (existsb _ _); [discriminate|]. destruct (negb _); [discriminate|]. destruct (construct env name) as [[[ty pr]|]|]; try discriminate.
        destruct (initRequest _ _ _ _) as [[[ir cbs] s] d]. destruct ir as [[]|]; try discriminate.
        match type of BD with context [scheduleControllers ?x ?y] => destruct (scheduleControllers x y) end; try discriminate. injection BD as <-. cbn.
        match goal with |- context [calls H ?p ?q ?r] => destruct (calls_spec H p q r) as (_ & _ & _ & _ & F5 & F6 & _) end.
        cbn in F5, F6. split; assumption.
      - unfold unload_body in BD. destruct (existsb _ _); [discriminate|]. destruct (transfer _ _ _) as [[[] to]|]; try discriminate.
        destruct (scheduleControllers _ _); try discriminate. injection BD as <-. split; reflexivity. }
    destruct KEEP as [KC KU].
    set (c7 := fun mm => ret k srv (kk (Returned true)) (with_pub None (with_mg (clear_former mm) (with_thr k (TClear srv cl kk) c6)))).
    destruct S6 as [UN|US].
    + assert (E7 : bstep H (LTh k) c6 = Some (Ok (with_thr k (TClear srv cl kk) c6))).
      { rewrite (th_at k c6 (TWait2 srv cl kk) (thr_here _ _ _)). cbn [th_step]. change (mg c6) with (flip (resize_stats m')). unfold former_in_use. change (used (flip (resize_stats m'))) with (used m').
        rewrite KU, UN, andb_false_r. reflexivity. }
      set (c7' := ret k srv (kk (Returned true)) (with_pub None (with_mg (clear_former (flip (resize_stats m'))) (with_thr k (TClear srv cl kk) c6)))).
      assert (E8 : bstep H (LTh k) (with_thr k (TClear srv cl kk) c6) = Some (Ok c7')) by (rewrite (th_at k (with_thr k (TClear srv cl kk) c6) (TClear srv cl kk) (thr_here _ _ _)); reflexivity).
      assert (CM : commit m' = clear_former (flip (resize_stats m'))).
      { unfold commit, rt_moved_on. change (used (flip (resize_stats m'))) with (used m'). rewrite KU, UN.
        replace (set_used None (flip (resize_stats m'))) with (flip (resize_stats m')); [reflexivity|]. destruct m'; cbn in *. rewrite KU, UN. reflexivity. }
      apply (close k a b c c7' (repeat (LTh k) 8) srv _ (commit m')); auto using only_th.
      * cbn [repeat]. rewrite R3, (runs_one H _ _ _ B3), (runs_one H _ _ _ E5), (runs_one H _ _ _ E6), (runs_one H _ _ _ E7), (runs_one H _ _ _ E8). reflexivity.
      * apply thr_here.
      * repeat split; auto. intros j J. cbn. rewrite !TO; auto.
    + (* the realtime thread moves on to the new list *)
      set (x := negb (cur m')).
      assert (CX : cur (flip (resize_stats m')) = x) by reflexivity.
      assert (E7 : exists d, bstep H (LRt a b) c6 = Some (Ok d) /\ mg d = mg c6 /\ rt d = RGot x /\ (forall j, thr d j = thr c6 j) /\ srv_lock d = srv_lock c /\ ctl_lock d = Some k /\ pub_lock d = Some (OThread k) /\ rosok d = true).
      { cbn [bstep]. unfold do_rt. change (rt c6) with (rt c). rewrite S1. cbn [rt_step bind]. eexists. split; [reflexivity|]. cbn. repeat split; auto. }
      destruct E7 as (d7 & E7 & M7 & R7 & T7 & A7 & B7 & C7 & D7).
      assert (E8 : exists d, bstep H (LRt a b) d7 = Some (Ok d) /\ mg d = rt_use x (flip (resize_stats m')) /\ rt d = RBegin /\ (forall j, thr d j = thr c6 j) /\ srv_lock d = srv_lock c /\ ctl_lock d = Some k /\ pub_lock d = Some (OThread k) /\ rosok d = true).
      { cbn [bstep]. unfold do_rt. rewrite R7. cbn [rt_step bind]. eexists. split; [reflexivity|]. cbn. rewrite M7, A7, B7, C7, D7. repeat split; auto. }
      destruct E8 as (d8 & E8 & M8 & R8 & T8 & A8 & B8 & C8 & D8).
      assert (T8' : thr d8 k = TWait2 srv cl kk) by (rewrite T8; apply thr_here).
      assert (E9 : bstep H (LTh k) d8 = Some (Ok (with_thr k (TClear srv cl kk) d8))).
      { rewrite (th_at _ _ _ T8'). cbn [th_step]. rewrite M8. unfold former_in_use. cbn [rt_use used set_used]. cbn. fold x. rewrite D8. cbn [andb].
        replace (Bool.eqb (negb x) x) with false by (destruct x; reflexivity). reflexivity. }
      set (d9 := ret k srv (kk (Returned true)) (with_pub None (with_mg (clear_former (mg d8)) (with_thr k (TClear srv cl kk) d8)))).
      assert (E10 : bstep H (LTh k) (with_thr k (TClear srv cl kk) d8) = Some (Ok d9)) by (rewrite (th_at k (with_thr k (TClear srv cl kk) d8) (TClear srv cl kk) (thr_here _ _ _)); reflexivity).
      assert (CM : mg d9 = commit m').
      { change (mg d9) with (clear_former (mg d8)). rewrite M8. unfold commit, rt_moved_on. change (used (flip (resize_stats m'))) with (used m'). rewrite KU, US. reflexivity. }
      assert (CU : used (commit m') = Some (cur (commit m'))) by (unfold commit, rt_moved_on; cbn; rewrite KU, US; reflexivity).
      destruct (finish_begin H a b d9 m2) as (n & c' & RN & R' & M' & (T' & X1 & X2 & X3 & X4)).
      * exact R8.
      * reflexivity.
      * rewrite CM. apply (update_used H a b _ _ CU UP).
      * destruct (update_settles H _ _ _ _ UP) as (V1 & V2 & V3).
        exists (repeat (LTh k) 6 ++ [LRt a b; LRt a b; LTh k; LTh k] ++ repeat (LRt a b) n), c'.
        split; [apply only_app; [apply only_th|apply only_app; [|apply only_rts]; intros l [<-|[<-|[<-|[<-|[]]]]]; auto]|].
        split; [|split; [|split; [exact M'|split]]].
        -- cbn [repeat app]. rewrite R3, (runs_one H _ _ _ B3), (runs_one H _ _ _ E5), (runs_one H _ _ _ E6), (runs_one H _ _ _ E7), (runs_one H _ _ _ E8), (runs_one H _ _ _ E9), (runs_one H _ _ _ E10). exact RN.
        -- rewrite T'. apply thr_here.
        -- repeat split; try congruence.
           ++ intros j J. rewrite T'. cbn. rewrite !TO by auto. rewrite T8. cbn. rewrite !TO; auto.
           ++ rewrite X1. exact A8.
           ++ rewrite X2. cbn. congruence.
           ++ rewrite X3. cbn. congruence.
           ++ rewrite X4. cbn. congruence.
        -- repeat split; try congruence; try (rewrite X2; reflexivity); try (rewrite X3; reflexivity); try (rewrite X4; exact D8). right. congruence.
  - injection CALL' as <- <-.
    apply (close k a b c (ret k srv (kk Exception) (with_mg m' c3)) (repeat (LTh k) 4) srv _ m'); auto using only_th.
    + cbn [repeat]. rewrite R3, (runs_one H _ _ _ B3). reflexivity.
    + apply thr_here.
    + repeat split; auto. intros j J. cbn. rewrite !TO; auto.
Qed.

(* ------------------------------------------------------------------ the trace is a ghost *)
Definition pre (es : list event) (m : mgr) : mgr := set_trace (es ++ trace m) m.
Definition rpre (es : list event) (r : res mgr) : res mgr := match r with Ok m => Ok (pre es m) | UB => UB | Abort => Abort | Hang => Hang end.

Section Ghost.
Variable es : list event.
Lemma pre_log e m : log e (pre es m) = pre es (log e m).
Proof. unfold log, pre. cbn. rewrite app_assoc. reflexivity. Qed.
Lemma pre_calls p cbs : forall m, calls H p cbs (pre es m) = pre es (calls H p cbs m).
Proof.
  unfold calls. induction cbs as [|cb cbs IH]; intros m; cbn [fold_left]; [reflexivity|]. rewrite <- IH. f_equal.
  unfold Manager.call. rewrite pre_log. reflexivity.
Qed.
Lemma pre_start p m : start_ctrl H p (pre es m) = (fst (start_ctrl H p m), pre es (snd (start_ctrl H p m))).
Proof. unfold start_ctrl. change (state_of (pre es m) p) with (state_of m p). destruct (startRequest _) as [[x cbs] s]. rewrite pre_calls. reflexivity. Qed.
Lemma pre_stop p m : stop_ctrl H p (pre es m) = (fst (stop_ctrl H p m), pre es (snd (stop_ctrl H p m))).
Proof. unfold stop_ctrl. change (state_of (pre es m) p) with (state_of m p). destruct (stopRequest _) as [[x cbs] s]. rewrite pre_calls. reflexivity. Qed.
Lemma pre_update p m : update_ctrl H p (pre es m) = pre es (update_ctrl H p m).
Proof. unfold update_ctrl. change (state_of (pre es m) p) with (state_of m p). destruct (updateRequest _) as [cbs s]. rewrite pre_calls. reflexivity. Qed.
Lemma pre_now m : now H (pre es m) = (fst (now H m), pre es (snd (now H m))).
Proof. unfold now. change (world (pre es m)) with (world m). destruct (h_now H (world m)). reflexivity. Qed.
Lemma pre_nth m i : rt_nth (pre es m) i = rt_nth m i.
Proof. reflexivity. Qed.
Lemma pre_each f is_ : (forall m i, f (pre es m) i = rpre es (f m i)) -> forall m, for_each f is_ (pre es m) = rpre es (for_each f is_ m).
Proof. intros F. induction is_ as [|i is_ IH]; intros m; cbn [for_each]; [reflexivity|]. rewrite F. destruct (f m i); cbn [rpre bind]; auto. Qed.
Lemma pre_restart_one m i : rt_restart_one H (pre es m) i = rpre es (rt_restart_one H m i).
Proof.
  unfold rt_restart_one. rewrite pre_nth. destruct (rt_nth m i) as [e| | |]; cbn [bind rpre]; auto. change (state_of (pre es m) (e_ptr e)) with (state_of m (e_ptr e)).
  destruct (isRunning _); [|reflexivity]. rewrite pre_stop. destruct (stop_ctrl H (e_ptr e) m) as [x m1]. cbn [fst snd]. rewrite pre_start.
  destruct (start_ctrl H (e_ptr e) m1). reflexivity.
Qed.
Lemma pre_update_one m i : rt_update_one H (pre es m) i = rpre es (rt_update_one H m i).
Proof.
  unfold rt_update_one. rewrite pre_nth. destruct (rt_nth m i) as [e| | |]; cbn [bind rpre]; auto. rewrite pre_now. destruct (now H m) as [t m1]. cbn [fst snd].
  rewrite pre_update, pre_now. destruct (now H (update_ctrl H (e_ptr e) m1)). reflexivity.
Qed.
Lemma pre_rt_pre m : rt_pre H (pre es m) = pre es (rt_pre H m).
Proof.
  unfold rt_pre. rewrite pre_now. destruct (now H m) as [t m1]. cbn [fst snd]. rewrite pre_log.
  change (on_world ?f (pre es ?x)) with (pre es (on_world f x)). rewrite pre_log. change (on_world ?f (pre es ?x)) with (pre es (on_world f x)). rewrite pre_now.
  destruct (now H _). reflexivity.
Qed.
Lemma pre_rt_post m : rt_post H (pre es m) = pre es (rt_post H m).
Proof.
  unfold rt_post, rt_enforce, rt_send. rewrite pre_now. destruct (now H m) as [t m1]. cbn [fst snd]. rewrite pre_log.
  change (on_world ?f (pre es ?x)) with (pre es (on_world f x)). rewrite pre_log. change (on_world ?f (pre es ?x)) with (pre es (on_world f x)). rewrite pre_now.
  destruct (now H _). reflexivity.
Qed.
Lemma pre_restart m : rt_restart H (pre es m) = rpre es (rt_restart H m).
Proof.
  unfold rt_restart. change (rt_list (pre es m)) with (rt_list m). destruct (rt_list m) as [l| | |]; cbn [bind rpre]; auto.
  change (rt_must_restart H (pre es m)) with (rt_must_restart H m). destruct (rt_must_restart H m); [|reflexivity].
  rewrite (pre_each _ _ pre_restart_one). destruct (for_each _ _ m); reflexivity.
Qed.
Lemma pre_update_all m : rt_update_all H (pre es m) = rpre es (rt_update_all H m).
Proof.
  unfold rt_update_all. change (rt_list (pre es m)) with (rt_list m). destruct (rt_list m) as [l| | |]; cbn [bind rpre]; auto. apply pre_each, pre_update_one.
Qed.
Lemma pre_fill m t l : forall i out, fill_stats (pre es m) t l i out = fill_stats m t l i out.
Proof. induction l as [|e l IH]; intros i out; cbn [fill_stats]; [reflexivity|]. destruct (vget out i); cbn [bind]; auto. destruct (vset _ _ _); cbn [bind]; auto. Qed.
Lemma pre_mech x m : publishMechanismStatistics H x (pre es m) = rpre es (publishMechanismStatistics H x m).
Proof.
  unfold publishMechanismStatistics. rewrite pre_now. destruct (now H m) as [t m1]. cbn [fst snd]. change (mech_due H t (pre es m1)) with (mech_due H t m1).
  destruct (mech_due H t m1); [|reflexivity]. destruct x; [|reflexivity]. unfold rt_fill_mech. change (last_mech (pre es m1)) with (last_mech m1).
  destruct (catch_up _ _ _ _) as [l| | |]; cbn [bind rpre]; auto. change (set_last_mech l (pre es m1)) with (pre es (set_last_mech l m1)).
  change (on_world ?f (pre es ?x)) with (pre es (on_world f x)). set (m2 := on_world (h_pub_mech H t) (set_last_mech l m1)). change (rt_list (pre es m2)) with (rt_list m2).
  destruct (rt_list m2) as [es'| | |]; cbn [bind rpre]; auto. rewrite pre_fill. change (mstats (pre es m2)) with (mstats m2).
  destruct (fill_stats _ _ _ _ _) as [o| | |]; cbn [bind rpre]; auto. change (set_mstats o (pre es m2)) with (pre es (set_mstats o m2)). rewrite pre_now.
  destruct (now H (set_mstats o m2)) as [t' m3]. cbn [fst snd rpre]. rewrite pre_log. reflexivity.
Qed.
Lemma pre_js x m : publishJointState H x (pre es m) = rpre es (publishJointState H x m).
Proof.
  unfold publishJointState. rewrite pre_now. destruct (now H m) as [t m1]. cbn [fst snd]. change (last_js (pre es m1)) with (last_js m1).
  destruct (_ <? _)%Z; [|reflexivity]. destruct x; [|reflexivity]. destruct (catch_up _ _ _ _) as [l| | |]; cbn [bind rpre]; auto.
  change (set_last_js l (pre es m1)) with (pre es (set_last_js l m1)). change (on_world ?f (pre es ?x)) with (pre es (on_world f x)). rewrite pre_now.
  destruct (now H _) as [t' m3]. cbn [fst snd rpre]. rewrite pre_log. reflexivity.
Qed.
Lemma pre_stop_one m p : rt_stop_one H (pre es m) p = pre es (rt_stop_one H m p).
Proof. unfold rt_stop_one. rewrite pre_stop. destruct (stop_ctrl H p m) as [[] m1]; cbn [fst snd]; [reflexivity|apply pre_log]. Qed.
Lemma pre_start_one m p : rt_start_one H (pre es m) p = pre es (rt_start_one H m p).
Proof. unfold rt_start_one. rewrite pre_start. destruct (start_ctrl H p m) as [[] m1]; cbn [fst snd]; [reflexivity|apply pre_log]. Qed.
Lemma pre_fold (f : mgr -> ptr -> mgr) ps : (forall m p, f (pre es m) p = pre es (f m p)) -> forall m, fold_left f ps (pre es m) = pre es (fold_left f ps m).
Proof. intros F. induction ps as [|p ps IH]; intros m; cbn [fold_left]; [reflexivity|]. now rewrite F, IH. Qed.
Lemma pre_switch m : rt_switch H (pre es m) = pre es (rt_switch H m).
Proof.
  unfold rt_switch. change (please (pre es m)) with (please m). destruct (please m); [|reflexivity]. change (stop_req (pre es m)) with (stop_req m).
  rewrite (pre_fold _ _ pre_stop_one). set (m1 := fold_left (rt_stop_one H) (stop_req m) m). change (start_req (pre es m1)) with (start_req m1).
  rewrite (pre_fold _ _ pre_start_one). unfold rt_switch_end. rewrite <- pre_log. reflexivity.
Qed.
Lemma pre_cycle a b m : update H a b (pre es m) = rpre es (update H a b m).
Proof.
  unfold update. change (cur (pre es m)) with (cur m). change (rt_use (cur m) (pre es m)) with (pre es (rt_use (cur m) m)). rewrite pre_rt_pre, pre_restart.
  destruct (rt_restart H _) as [m1| | |]; cbn [bind rpre]; auto. rewrite pre_update_all. destruct (rt_update_all H m1) as [m2| | |]; cbn [bind rpre]; auto.
  rewrite pre_rt_post, pre_mech. destruct (publishMechanismStatistics H a _) as [m3| | |]; cbn [bind rpre]; auto.
  rewrite pre_js. destruct (publishJointState H b m3) as [m4| | |]; cbn [bind rpre]; auto. rewrite pre_switch. reflexivity.
Qed.
End Ghost.
Lemma trace_ghost a b e m m2 : update H a b m = Ok m2 -> exists new, trace m2 = trace m ++ new /\ update H a b (log e m) = Ok (set_trace (trace m ++ [e] ++ new) m2).
Proof.
  intros U. set (m0 := set_trace [] m). assert (E1 : m = pre (trace m) m0) by (unfold pre, m0; cbn; rewrite app_nil_r; destruct m; reflexivity).
  assert (E2 : log e m = pre (trace m ++ [e]) m0) by (unfold log, pre, m0; cbn; rewrite app_nil_r; destruct m; reflexivity).
  rewrite E1, pre_cycle in U. destruct (update H a b m0) as [mx| | |] eqn:U0; cbn [rpre] in U; try discriminate. injection U as <-.
  exists (trace mx). split; [reflexivity|]. rewrite E2, pre_cycle, U0. cbn [rpre]. f_equal. unfold pre. cbn. rewrite <- app_assoc. reflexivity.
Qed.

(** A switch request of one client, nobody else interfering: it is executed by the next cycle and then answered, with
    exactly the effect of the sequential call; the only difference in the recorded history are the two marks saying when
    the request was handed over and when the call returned. *)
Theorem C75_switch_in_one_cycle : forall (c : config) k srv start stop strictness kk a b m2,
  settled c -> thr c k = TProg srv (PCall (CSwitch start stop strictness) kk) ->
  in_one_piece H a b (CSwitch start stop strictness) (mg c) = Ok (Returned true, m2) ->
  exists ls c' ps qs new, only k a b ls /\ runs H ls c = Some c' /\ thr c' k = TProg srv (kk (Returned true)) /\ beside k c c' /\ settled c' /\
    trace m2 = trace (mg c) ++ new /\ mg c' = set_trace (trace (mg c) ++ [EvRequest ps qs] ++ new ++ [EvSwitchReturn]) m2.
Proof.
  intros c k srv start stop z kk a b m2 ST TH CALL. pose proof ST as (S1 & S2 & S3 & S4 & S5 & S6).
  cbn [in_one_piece] in CALL. unfold switchController in CALL.
  destruct (switch_body start stop z (mg c)) as [m'|m'|m'|] eqn:BD; try discriminate.
  destruct (update H a b m') as [mx| | |] eqn:UP; cbn [bind] in CALL; try discriminate. injection CALL as ->.
  set (cl := CSwitch start stop z) in *. set (ps := stop_req m'). set (qs := start_req m').
  destruct (trace_ghost a b (EvRequest ps qs) m' m2 UP) as (new & TN & UP').
  assert (TM : trace m' = trace (mg c)).
  { clear -BD. unfold switch_body in BD. destruct (collect _ _ stop); [|discriminate]. destruct (collect _ _ start); [|discriminate]. injection BD as <-. reflexivity. }
  set (c1 := with_thr k (TLock srv cl kk) c). set (c2 := with_thr k (TBody srv cl kk) (with_ctl (Some k) c1)).
  set (c3 := with_thr k (TSw srv kk) (with_mg (log (EvRequest ps qs) m') c2)).
  assert (E1 : bstep H (LTh k) c = Some (Ok c1)) by (rewrite (th_at _ _ _ TH); reflexivity).
  assert (E2 : bstep H (LTh k) c1 = Some (Ok c2)).
  { rewrite (th_at k c1 (TLock srv cl kk) (thr_here _ _ _)). cbn [th_step]. change (ctl_lock c1) with (ctl_lock c). rewrite S2. reflexivity. }
  assert (E3 : bstep H (LTh k) c2 = Some (Ok c3)).
  { rewrite (th_at k c2 (TBody srv cl kk) (thr_here _ _ _)). cbn [th_step body cl]. change (mg c2) with (mg c). rewrite BD. reflexivity. }
  destruct (whole H a b c3 _ S1 S3 UP') as (n & c4 & RN & R4 & M4 & (T4 & X1 & X2 & X3 & X4)).
  destruct (update_settles H _ _ _ _ UP') as (V1 & V2 & V3). rewrite <- M4 in V1, V2, V3.
  assert (T4' : thr c4 k = TSw srv kk) by (rewrite T4; apply thr_here).
  assert (E5 : bstep H (LTh k) c4 = Some (Ok (ret k srv (kk (Returned true)) (with_mg (log EvSwitchReturn (mg c4)) c4)))).
  { rewrite (th_at _ _ _ T4'). cbn [th_step]. rewrite V3, andb_false_r. reflexivity. }
  exists (repeat (LTh k) 3 ++ repeat (LRt a b) n ++ [LTh k]). eexists. exists ps, qs, new.
  split; [apply only_app; [apply only_th|apply only_app; [apply only_rts|intros l [<-|[]]; auto]]|].
  split; [|split; [apply thr_here|split; [|split; [|split]]]].
  - rewrite runs_app. cbn [repeat]. rewrite (runs_one H _ _ _ E1), (runs_one H _ _ _ E2), (runs_one H _ _ _ E3). cbn [runs]. rewrite runs_app, RN. cbn [runs]. rewrite E5. reflexivity.
  - assert (TO : forall j t x, j <> k -> set_thr x k t j = x j) by (intros j t x J; unfold set_thr; destruct (Nat.eqb_spec j k); [contradiction|reflexivity]).
    repeat split; cbn; try congruence; try (rewrite X1; reflexivity); try (rewrite X3; exact eq_refl); try (rewrite X4; exact eq_refl).
    intros j J. rewrite TO by auto. rewrite T4. cbn. rewrite !TO; auto.
  - repeat split; cbn; try congruence; try (rewrite X3; assumption); try (rewrite X4; assumption). right. congruence.
  - congruence.
  - cbn. rewrite M4. unfold log. cbn. rewrite TM. rewrite <- !app_assoc. destruct m2; reflexivity.
Qed.
(** and a refused one changes nothing but what the sequential call changes, at once *)
Theorem C75_switch_refused : forall (c : config) k srv start stop strictness kk a b m1,
  settled c -> thr c k = TProg srv (PCall (CSwitch start stop strictness) kk) ->
  in_one_piece H a b (CSwitch start stop strictness) (mg c) = Ok (Returned false, m1) ->
  exists c', runs H (repeat (LTh k) 3) c = Some c' /\ thr c' k = TProg srv (kk (Returned false)) /\ beside k c c' /\ settled c' /\ mg c' = m1.
Proof.
  intros c k srv start stop z kk a b m1 ST TH CALL. pose proof ST as (S1 & S2 & S3 & S4 & S5 & S6).
  cbn [in_one_piece] in CALL. unfold switchController in CALL.
  destruct (switch_body start stop z (mg c)) as [m'|m'|m'|] eqn:BD; try discriminate.
  2: { destruct (update H a b m') as [mx| | |]; discriminate. }
  injection CALL as <-.
  set (cl := CSwitch start stop z) in *. set (c1 := with_thr k (TLock srv cl kk) c). set (c2 := with_thr k (TBody srv cl kk) (with_ctl (Some k) c1)).
  assert (E1 : bstep H (LTh k) c = Some (Ok c1)) by (rewrite (th_at _ _ _ TH); reflexivity).
  assert (E2 : bstep H (LTh k) c1 = Some (Ok c2)).
  { rewrite (th_at k c1 (TLock srv cl kk) (thr_here _ _ _)). cbn [th_step]. change (ctl_lock c1) with (ctl_lock c). rewrite S2. reflexivity. }
  assert (E3 : bstep H (LTh k) c2 = Some (Ok (ret k srv (kk (Returned false)) (with_mg m' c2)))).
  { rewrite (th_at k c2 (TBody srv cl kk) (thr_here _ _ _)). cbn [th_step body cl]. change (mg c2) with (mg c). rewrite BD. reflexivity. }
  eexists. cbn [repeat]. rewrite (runs_one H _ _ _ E1), (runs_one H _ _ _ E2), (runs_one H _ _ _ E3). split; [reflexivity|].
  assert (TO : forall j t x, j <> k -> set_thr x k t j = x j) by (intros j t x J; unfold set_thr; destruct (Nat.eqb_spec j k); [contradiction|reflexivity]).
  assert (KEEP : please m' = please (mg c) /\ used m' = used (mg c) /\ cur m' = cur (mg c)).
  { clear -BD. unfold switch_body in BD. destruct (collect _ _ stop); [|injection BD as <-; auto]. destruct (collect _ _ start); [discriminate|]. injection BD as <-. auto. }
  destruct KEEP as (K1 & K2 & K3).
  split; [apply thr_here|]. split; [|split; [|reflexivity]].
  - repeat split; cbn; try congruence. intros j J. rewrite !TO; auto.
  - repeat split; cbn; try congruence.
Qed.
End Sequential.

(** The hypothesis is met between cycles in every execution whenever no call is in progress and nobody publishes. *)
Theorem C75_settled_when_quiet {W} (H : hooks W) : positive_periods H -> forall c : config W, live H c ->
  rt c = RIdle -> ctl_lock c = None -> pub_lock c = None -> settled c.
Proof.
  intros [P1 P2] c L R C P. pose proof (live_inv H P1 P2 c L) as I. pose proof (live_ros H c L) as O.
  pose proof (ib_hold c I) as HO. unfold holder in HO. rewrite C in HO. cbn in HO. destruct HO as [U PL].
  repeat split; auto.
Qed.

(** non-vacuity: the example manager with three controllers, two of them running *)
Definition exc (cl : call) : config exW := with_thr 3 (TProg false (one_call cl)) (quiet ex1).
Definition shows (r : res (answer * mgr exW)) : res (answer * list string) := do x <- r; Ok (fst x, loaded_names (snd x)).
Example C75_ex_load : settled (exc (CLoad exEnv "d")) /\
  shows (in_one_piece exH true true (CLoad exEnv "d") (mg (exc (CLoad exEnv "d")))) = Ok (Returned true, ["a"; "b"; "c"; "d"]) /\
  shows (do x <- in_one_piece exH true true (CLoad exEnv "d") ex1; do m <- update exH true true (snd x); Ok (fst x, m)) = Ok (Returned true, ["a"; "b"; "c"; "d"]).
Proof. split; [vm_compute; auto 8|]. split; vm_compute; reflexivity. Qed.
Example C75_ex_switch : settled (exc (CSwitch ["c"] ["a"] STRICT)) /\
  shows (in_one_piece exH true true (CSwitch ["c"] ["a"] STRICT) (mg (exc (CSwitch ["c"] ["a"] STRICT)))) = Ok (Returned true, ["a"; "b"; "c"]) /\
  shows (in_one_piece exH true true (CSwitch ["c"] ["nobody"] STRICT) ex1) = Ok (Returned false, ["a"; "b"; "c"]).
Proof. split; [vm_compute; auto 8|]. split; vm_compute; reflexivity. Qed.
