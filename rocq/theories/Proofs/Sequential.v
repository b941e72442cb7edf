(** Level B without interference coincides with level A. *)
From Coq Require Import List String Arith Bool ZArith Lia.
From Verif.Model Require Import Base Scheduler Controller Manager ManagerConc.
From Verif.Spec Require Import SequentialSpec.
From Verif.Proofs Require Import ManagerProofs.
Import ListNotations.

Section Seq.
Context {W : Type} (H : hooks W).
Notation mgr := (mgr W).
Notation config := (config W).

(** what the realtime thread never changes while using its list *)
Definition steadyl (m m' : mgr) : Prop :=
  lists m' = lists m /\ scheds m' = scheds m /\ used m' = used m /\ start_req m' = start_req m /\ stop_req m' = stop_req m /\ cur m' = cur m.
Lemma sl_refl m : steadyl m m.
Proof. repeat split. Qed.
Lemma sl_trans m1 m2 m3 : steadyl m1 m2 -> steadyl m2 m3 -> steadyl m1 m3.
Proof. unfold steadyl. intuition congruence. Qed.
Lemma sl_calls p s cbs m : steadyl m (put_state p s (calls H p cbs m)).
Proof. destruct (calls_spec H p cbs m) as (E1&E2&E3&E4&E5&E6&E7&E8&E9&_). repeat split; simpl; assumption. Qed.
Lemma sl_start p m : steadyl m (snd (start_ctrl H p m)).
Proof. unfold start_ctrl. destruct (startRequest _) as [[b cbs] s]. apply sl_calls. Qed.
Lemma sl_stop p m : steadyl m (snd (stop_ctrl H p m)).
Proof. unfold stop_ctrl. destruct (stopRequest _) as [[b cbs] s]. apply sl_calls. Qed.
Lemma sl_now m : steadyl m (snd (now H m)).
Proof. unfold now. destruct (h_now H (world m)). repeat split. Qed.
Lemma sl_update p m : steadyl m (update_ctrl H p m).
Proof. unfold update_ctrl. destruct (updateRequest _) as [cbs s]. apply sl_calls. Qed.
Lemma sl_stop_one m p : steadyl m (rt_stop_one H m p).
Proof. unfold rt_stop_one. pose proof (sl_stop p m) as A. destruct (stop_ctrl H p m) as [[] m']; exact A. Qed.
Lemma sl_start_one m p : steadyl m (rt_start_one H m p).
Proof. unfold rt_start_one. pose proof (sl_start p m) as A. destruct (start_ctrl H p m) as [[] m']; exact A. Qed.
Lemma sl_update_one m i m' : rt_update_one H m i = Ok m' -> steadyl m m'.
Proof.
  unfold rt_update_one. destruct (rt_nth m i) as [e| | |]; cbn [bind]; try discriminate.
  pose proof (sl_now m) as A. destruct (now H m) as [t0 m1]. cbn [snd] in A. pose proof (sl_update (e_ptr e) m1) as B.
  pose proof (sl_now (update_ctrl H (e_ptr e) m1)) as C. destruct (now H (update_ctrl H (e_ptr e) m1)) as [t1 m2]. cbn [snd] in C.
  intros [= <-]. pose proof (sl_trans _ _ _ A (sl_trans _ _ _ B C)) as D. exact D.
Qed.
Lemma sl_pre m : steadyl m (rt_pre H m).
Proof. unfold rt_pre, now. destruct (h_now H (world m)) as [t w]. cbn. destruct (h_now H _) as [t' w']. repeat split. Qed.
Lemma sl_enforce m : steadyl m (rt_enforce H m).
Proof. unfold rt_enforce, now. destruct (h_now H (world m)) as [t w]. repeat split. Qed.
Lemma sl_send m : steadyl m (rt_send H m).
Proof. unfold rt_send, now. cbv zeta. destruct (h_now H _) as [t w]. repeat split. Qed.
Lemma sl_post m : steadyl m (rt_post H m).
Proof. unfold rt_post, rt_enforce, rt_send, now. destruct (h_now H (world m)) as [t w]. cbn. destruct (h_now H _) as [t' w']. repeat split. Qed.
Lemma sl_fill t m m' : rt_fill_mech H t m = Ok m' -> steadyl m m'.
Proof.
  unfold rt_fill_mech. destruct (catch_up _ _ _ _) as [l| | |]; cbn [bind]; try discriminate.
  destruct (rt_list _) as [es| | |]; cbn [bind]; try discriminate. destruct (fill_stats _ _ _ _ _) as [o| | |]; cbn [bind]; try discriminate.
  unfold now. cbn. destruct (h_now H _). intros [= <-]. repeat split.
Qed.
Lemma sl_pubjs b m m' : publishJointState H b m = Ok m' -> steadyl m m'.
Proof.
  unfold publishJointState, now. destruct (h_now H (world m)) as [t w]. cbn. destruct (_ <? _)%Z; [|intros [= <-]; repeat split].
  destruct b; [|intros [= <-]; repeat split]. destruct (catch_up _ _ _ _) as [l| | |]; cbn [bind]; try discriminate.
  cbn. destruct (h_now H _). intros [= <-]. repeat split.
Qed.
Lemma sl_list m m' : steadyl m m' -> rt_list m' = rt_list m.
Proof. intros (A & _ & B & _). unfold rt_list. now rewrite A, B. Qed.
Lemma sl_nth m m' i : steadyl m m' -> rt_nth m' i = rt_nth m i.
Proof. intros (A & C & B & _). unfold rt_nth, rt_list, rt_sched. now rewrite A, B, C. Qed.

(* ------------------------------------------------------------------ the rest of a cycle *)
Section Cycle.
Variables (free a b : bool).
Definition rest_switch (m : mgr) : res mgr := Ok (rt_switch H m).
Definition rest_pub2 (m : mgr) : res mgr := do m <- publishJointState H b m; Ok (rt_switch H m).
Definition rest_pub1 (m : mgr) : res mgr := do m <- publishMechanismStatistics H (free && a) m; rest_pub2 m.
Definition rest_update (i : nat) (m : mgr) : res mgr :=
  do l <- rt_list m; do m <- for_each (rt_update_one H) (seq i (List.length l - i)) m; rest_pub1 (rt_post H m).
Definition rest_restart (i : nat) (m : mgr) : res mgr :=
  do l <- rt_list m; do m <- for_each (rt_restart_one H) (seq i (List.length l - i)) m;
  rest_update 0 (set_prev_halted (h_halted H (world m)) m).
Definition rest_begin (m : mgr) : res mgr :=
  do m <- rt_restart H (rt_pre H m); do m <- rt_update_all H m; rest_pub1 (rt_post H m).
Definition rest (pc : rpc) (m : mgr) : res mgr :=
  match pc with
  | RIdle => Ok m
  | RGot x => rest_begin (rt_use x m)
  | RBegin => rest_begin m
  | RRestart i => rest_restart i m
  | RRestarting i => do e <- rt_nth m i; rest_restart (S i) (snd (start_ctrl H (e_ptr e) m))
  | RUpdate i => rest_update i m
  | REffort => rest_pub1 (rt_send H m)
  | RPub1 => rest_pub1 m
  | RFill t => do m <- rt_fill_mech H t m; rest_pub2 m
  | RPub2 => rest_pub2 m
  | RSwitch => Ok (rt_switch H m)
  | RStop ps => let m := fold_left (rt_stop_one H) ps m in Ok (rt_switch_end (fold_left (rt_start_one H) (start_req m) m))
  | RStart ps => Ok (rt_switch_end (fold_left (rt_start_one H) ps m))
  | REnd => Ok (rt_switch_end m)
  end.

Lemma seq_cons i n : i < n -> seq i (n - i) = i :: seq (S i) (n - S i).
Proof. intros L. replace (n - i) with (S (n - S i)) by lia. reflexivity. Qed.

Lemma for_each_list f is_ : (forall m i m', f m i = Ok m' -> steadyl m m') -> forall m m', for_each f is_ m = Ok m' -> steadyl m m'.
Proof.
  intros F. induction is_ as [|i is_ IH]; intros m m' E; cbn [for_each] in E; [injection E as <-; apply sl_refl|].
  destruct (f m i) as [m1| | |] eqn:E1; cbn [bind] in E; try discriminate. eapply sl_trans; [eapply F; eauto|]. now apply IH.
Qed.
Lemma rest_update_step i m : rest_update i m = (do l <- rt_list m; if Nat.ltb i (List.length l) then do m1 <- rt_update_one H m i; rest_update (S i) m1 else rest_pub1 (rt_post H m)).
Proof.
  unfold rest_update. destruct (rt_list m) as [l| | |] eqn:L; cbn [bind]; try reflexivity.
  destruct (Nat.ltb_spec i (List.length l)) as [LT|GE].
  - rewrite (seq_cons i _ LT). cbn [for_each]. destruct (rt_update_one H m i) as [m1| | |] eqn:E; cbn [bind]; try reflexivity.
    rewrite (sl_list _ _ (sl_update_one _ _ _ E)), L. reflexivity.
  - replace (List.length l - i) with 0 by lia. reflexivity.
Qed.
Lemma rest_restart_step i m : rest_restart i m = (do l <- rt_list m; if Nat.ltb i (List.length l) then do m1 <- rt_restart_one H m i; rest_restart (S i) m1
    else rest_update 0 (set_prev_halted (h_halted H (world m)) m)).
Proof.
  unfold rest_restart. destruct (rt_list m) as [l| | |] eqn:L; cbn [bind]; try reflexivity.
  destruct (Nat.ltb_spec i (List.length l)) as [LT|GE].
  - rewrite (seq_cons i _ LT). cbn [for_each]. destruct (rt_restart_one H m i) as [m1| | |] eqn:E; cbn [bind]; try reflexivity.
    enough (A : steadyl m m1) by (rewrite (sl_list _ _ A), L; reflexivity).
    unfold rt_restart_one in E. destruct (rt_nth m i) as [e| | |]; cbn [bind] in E; try discriminate.
    destruct (isRunning _); [|injection E as <-; apply sl_refl].
    pose proof (sl_stop (e_ptr e) m) as A. destruct (stop_ctrl H (e_ptr e) m) as [x m2]. cbn [snd] in A.
    pose proof (sl_start (e_ptr e) m2) as B. destruct (start_ctrl H (e_ptr e) m2) as [y m3]. injection E as <-. eapply sl_trans; eauto.
  - replace (List.length l - i) with 0 by lia. reflexivity.
Qed.

Lemma bind_assoc {A B C} (x : res A) (f : A -> res B) (g : B -> res C) : (do y <- (do z <- x; f z); g y) = (do z <- x; do y <- f z; g y).
Proof. destruct x; reflexivity. Qed.

Lemma rest_step pc m : pc <> RIdle -> rest pc m = (do r <- rt_step H free a b pc m; rest (snd r) (fst r)).
Proof.
  intros NI. destruct pc as [|x| |i|i|i| | |t| | |ps|ps|]; cbn [rest rt_step bind fst snd]; try contradiction; try reflexivity.
  - (* RBegin *) unfold rest_begin, rt_restart. destruct (rt_must_restart H (rt_pre H m)) eqn:MR; cbn [bind fst snd rest].
    + unfold rest_restart. destruct (rt_list (rt_pre H m)) as [l| | |] eqn:L; cbn [bind]; try reflexivity.
      rewrite Nat.sub_0_r. destruct (for_each _ _ _) as [m1| | |] eqn:F; cbn [bind]; try reflexivity.
      unfold rest_update, rt_update_all. destruct (rt_list (set_prev_halted (h_halted H (world m1)) m1)) as [l1| | |]; cbn [bind]; try reflexivity. rewrite Nat.sub_0_r. reflexivity.
    + unfold rest_update, rt_update_all. change (rt_list (set_prev_halted ?x ?y)) with (rt_list y). destruct (rt_list (rt_pre H m)) as [l| | |] eqn:L; cbn [bind]; try reflexivity.
      change (rt_list (set_prev_halted ?x ?y)) with (rt_list y). rewrite L. cbn [bind]. rewrite Nat.sub_0_r. reflexivity.
  - (* RRestart *) rewrite rest_restart_step. destruct (rt_list m) as [l| | |]; cbn [bind]; try reflexivity.
    destruct (Nat.ltb i (List.length l)); [|reflexivity]. unfold rt_restart_one. destruct (rt_nth m i) as [e| | |] eqn:N; cbn [bind]; try reflexivity.
    destruct (isRunning _); [|reflexivity]. pose proof (sl_stop (e_ptr e) m) as A. destruct (stop_ctrl H (e_ptr e) m) as [x m1]. cbn [snd] in A.
    cbn [bind fst snd rest]. rewrite (sl_nth _ _ i A), N. cbn [bind]. destruct (start_ctrl H (e_ptr e) m1); reflexivity.
  - (* RRestarting *) destruct (rt_nth m i) as [e| | |]; cbn [bind]; try reflexivity. destruct (start_ctrl H (e_ptr e) m); reflexivity.
  - (* RUpdate *) rewrite rest_update_step. destruct (rt_list m) as [l| | |]; cbn [bind]; try reflexivity.
    destruct (Nat.ltb i (List.length l)); [|reflexivity]. destruct (rt_update_one H m i); reflexivity.
  - (* RPub1 *) unfold rest_pub1, publishMechanismStatistics. destruct (now H m) as [t m1]. rewrite <- andb_assoc. destruct (mech_due H t m1); cbn [andb]; [|reflexivity].
    destruct (free && a); reflexivity.
  - destruct (rt_fill_mech H t m); reflexivity.
  - unfold rest_pub2. destruct (publishJointState H b m); reflexivity.
  - unfold rt_switch. destruct (please m); reflexivity.
  - destruct ps; reflexivity.
  - destruct ps; reflexivity.
Qed.

(* ------------------------------------------------------------------ how many steps are left *)
Definition ulen (m : mgr) : nat := match used m with Some x => List.length (lists m x) | None => 0 end.
Definition req (m : mgr) : nat := List.length (start_req m) + List.length (stop_req m).
Definition left (pc : rpc) (m : mgr) : nat :=
  let n := ulen m in
  match pc with
  | RIdle => 0
  | RGot x => 21 + 3 * List.length (lists m x) + req m
  | RBegin => 19 + 3 * n + req m
  | RRestart i => 18 + n + 2 * (n - i) + req m
  | RRestarting i => 19 + n + 2 * (n - S i) + req m
  | RUpdate i => 17 + (n - i) + req m
  | REffort => 16 + req m
  | RPub1 => 15 + req m
  | RFill _ => 14 + req m
  | RPub2 => 13 + req m
  | RSwitch => 12 + req m
  | RStop ps => 5 + List.length ps + List.length (start_req m)
  | RStart ps => 2 + List.length ps
  | REnd => 1
  end.
Lemma sl_ulen m m' : steadyl m m' -> ulen m' = ulen m.
Proof. intros (A & _ & B & _). unfold ulen. now rewrite A, B. Qed.
Lemma sl_req m m' : steadyl m m' -> req m' = req m.
Proof. intros (_ & _ & _ & A & B & _). unfold req. now rewrite A, B. Qed.
Lemma rt_list_ulen m l : rt_list m = Ok l -> ulen m = List.length l.
Proof. unfold rt_list, ulen. destruct (used m); [intros [= <-]; reflexivity|discriminate]. Qed.

Lemma left_step pc m m' pc' : pc <> RIdle -> rt_step H free a b pc m = Ok (m', pc') -> pc' = RIdle \/ left pc' m' < left pc m.
Proof.
  intros NI E. destruct pc as [|x| |i|i|i| | |t| | |ps|ps|]; cbn [rt_step] in E; try contradiction.
  - injection E as <- <-. right. cbn [left]. unfold ulen, req. cbn. lia.
  - pose proof (sl_pre m) as P. destruct (rt_must_restart H (rt_pre H m)); injection E as <- <-; right; cbn [left];
      (try change (ulen (set_prev_halted ?x ?y)) with (ulen y)); (try change (req (set_prev_halted ?x ?y)) with (req y));
      rewrite (sl_ulen _ _ P), (sl_req _ _ P); lia.
  - destruct (rt_list m) as [l| | |] eqn:L; cbn [bind] in E; try discriminate. apply rt_list_ulen in L.
    destruct (Nat.ltb_spec i (List.length l)) as [LT|GE].
    + destruct (rt_nth m i) as [e| | |]; cbn [bind] in E; try discriminate. destruct (isRunning _).
      * pose proof (sl_stop (e_ptr e) m) as A. destruct (stop_ctrl H (e_ptr e) m) as [y m1]. injection E as <- <-. right. cbn [left snd] in *.
        rewrite (sl_ulen _ _ A), (sl_req _ _ A). lia.
      * injection E as <- <-. right. cbn [left]. lia.
    + injection E as <- <-. right. cbn [left]. change (ulen (set_prev_halted ?x ?y)) with (ulen y). change (req (set_prev_halted ?x ?y)) with (req y). lia.
  - destruct (rt_nth m i) as [e| | |]; cbn [bind] in E; try discriminate.
    pose proof (sl_start (e_ptr e) m) as A. destruct (start_ctrl H (e_ptr e) m) as [y m1]. injection E as <- <-. right. cbn [left snd] in *.
    rewrite (sl_ulen _ _ A), (sl_req _ _ A). lia.
  - destruct (rt_list m) as [l| | |] eqn:L; cbn [bind] in E; try discriminate. apply rt_list_ulen in L.
    destruct (Nat.ltb_spec i (List.length l)) as [LT|GE].
    + destruct (rt_update_one H m i) as [m1| | |] eqn:U; cbn [bind] in E; try discriminate. injection E as <- <-. right. cbn [left].
      pose proof (sl_update_one _ _ _ U) as A. rewrite (sl_ulen _ _ A), (sl_req _ _ A). lia.
    + injection E as <- <-. right. cbn [left]. rewrite (sl_req _ _ (sl_enforce m)). lia.
  - injection E as <- <-. right. cbn [left]. rewrite (sl_req _ _ (sl_send m)). lia.
  - pose proof (sl_now m) as A. destruct (now H m) as [t m1]. cbn [snd] in A. destruct (_ && a); injection E as <- <-; right; cbn [left]; rewrite (sl_req _ _ A); lia.
  - destruct (rt_fill_mech H t m) as [m1| | |] eqn:F; cbn [bind] in E; try discriminate. injection E as <- <-. right. cbn [left]. rewrite (sl_req _ _ (sl_fill _ _ _ F)). lia.
  - destruct (publishJointState H b m) as [m1| | |] eqn:F; cbn [bind] in E; try discriminate. injection E as <- <-. right. cbn [left]. rewrite (sl_req _ _ (sl_pubjs _ _ _ F)). lia.
  - destruct (please m); injection E as <- <-; [right|left; reflexivity]. cbn [left]. unfold req. lia.
  - destruct ps as [|p ps]; injection E as <- <-; right; cbn [left List.length]; [lia|]. destruct (sl_stop_one m p) as (_ & _ & _ & -> & _). lia.
  - destruct ps as [|p ps]; injection E as <- <-; right; cbn [left List.length]; lia.
  - injection E as <- <-. left. reflexivity.
Qed.
End Cycle.

(* ------------------------------------------------------------------ runs of the realtime thread alone *)
Lemma rest_idle free a b m : rest free a b (RGot (cur m)) m = update H (free && a) b m.
Proof. cbn [rest]. unfold rest_begin, update, rest_pub1, rest_pub2. destruct (rt_restart _ _); cbn [bind]; reflexivity. Qed.

(** pub_mech_stats_ belongs to the realtime thread exactly while it fills the message *)
Definition pub_is (p : option owner) (c : config) : Prop :=
  match rt c with RFill _ => p = None /\ pub_lock c = Some ORt | _ => pub_lock c = p end.

Lemma rt_fill_free free a b pc m m' t : rt_step H free a b pc m = Ok (m', RFill t) -> pc = RPub1 /\ free = true.
Proof.
  intros E. destruct pc as [|x| |i|i|i| | |u| | |ps|ps|]; cbn [rt_step] in E; try discriminate.
  - destruct (rt_must_restart H (rt_pre H m)); discriminate.
  - destruct (rt_list m) as [l| | |]; cbn [bind] in E; try discriminate. destruct (Nat.ltb _ _); [|discriminate].
    destruct (rt_nth m i) as [e| | |]; cbn [bind] in E; try discriminate. destruct (isRunning _); [|discriminate]. destruct (stop_ctrl H _ m); discriminate.
  - destruct (rt_nth m i) as [e| | |]; cbn [bind] in E; try discriminate. destruct (start_ctrl H _ m); discriminate.
  - destruct (rt_list m) as [l| | |]; cbn [bind] in E; try discriminate. destruct (Nat.ltb _ _); [|discriminate]. destruct (rt_update_one H m i); discriminate.
  - split; [reflexivity|]. destruct (now H m) as [v m1]. destruct (mech_due H v m1); cbn [andb] in E; [|discriminate]. destruct free; [reflexivity|discriminate].
  - destruct (rt_fill_mech H u m); discriminate.
  - destruct (publishJointState H b m); discriminate.
  - destruct (please m); discriminate.
  - destruct ps; discriminate.
  - destruct ps; discriminate.
Qed.
Lemma free_only_pub1 f f' a b pc m : pc <> RPub1 -> rt_step H f a b pc m = rt_step H f' a b pc m.
Proof. destruct pc; try reflexivity. contradiction. Qed.

(** one step of the realtime thread alone *)
Lemma alone_step a b p (c : config) : rt c <> RIdle -> pub_is p c ->
  let free := match p with None => true | _ => false end in
  match rt_step H free a b (rt c) (mg c) with
  | Ok (m', pc') => exists c', bstep H (LRt a b) c = Some (Ok c') /\ mg c' = m' /\ rt c' = pc' /\ pub_is p c' /\
      (forall k, thr c' k = thr c k) /\ srv_lock c' = srv_lock c /\ ctl_lock c' = ctl_lock c /\ rosok c' = rosok c
  | UB => bstep H (LRt a b) c = Some UB | Abort => bstep H (LRt a b) c = Some Abort | Hang => bstep H (LRt a b) c = Some Hang
  end.
Proof.
  intros NI PI free. cbn [bstep]. unfold do_rt.
  assert (FR : rt_step H (match pub_lock c with None => true | Some _ => false end) a b (rt c) (mg c) = rt_step H free a b (rt c) (mg c)).
  { unfold pub_is in PI. destruct (rt c) eqn:E; try (apply free_only_pub1; discriminate). rewrite PI. reflexivity. }
  rewrite FR. destruct (rt_step H free a b (rt c) (mg c)) as [[m' pc']| | |] eqn:S; cbn [bind]; try reflexivity.
  eexists. split; [reflexivity|]. cbn [mg rt thr srv_lock ctl_lock pub_lock rosok]. repeat (split; [reflexivity|]). split; [|repeat split].
  unfold pub_is in *. cbn [rt pub_lock]. destruct pc' as [| | | | | | | |t| | | | |] eqn:PC'; try (cbn [rt_pub]; destruct (rt c); intuition congruence).
  destruct (rt_fill_free _ _ _ _ _ _ _ S) as [E F]. rewrite E in *. cbn [rt_pub]. subst free. destruct p; [discriminate|]. split; reflexivity.
Qed.

Lemma runs_app ls ls' c : runs H (ls ++ ls') c = match runs H ls c with Some c' => runs H ls' c' | None => None end.
Proof.
  revert c. induction ls as [|l ls IH]; intros c; cbn [runs app]; [reflexivity|].
  destruct (bstep H l c) as [[c'| | |]|]; auto.
Qed.

(** to the end of the cycle *)
Lemma finish a b p : forall k c m', left (rt c) (mg c) < k -> rt c <> RIdle -> pub_is p c ->
  rest (match p with None => true | _ => false end) a b (rt c) (mg c) = Ok m' ->
  exists n c', runs H (repeat (LRt a b) (S n)) c = Some c' /\ rt c' = RIdle /\ mg c' = m' /\ pub_is p c' /\
    (forall k, thr c' k = thr c k) /\ srv_lock c' = srv_lock c /\ ctl_lock c' = ctl_lock c /\ rosok c' = rosok c /\
    forall j, j < n -> exists d, runs H (repeat (LRt a b) (S j)) c = Some d /\ rt d <> RIdle.
Proof.
  induction k as [|k IH]; intros c m' LT NI PI RE; [lia|].
  rewrite rest_step in RE by assumption. pose proof (alone_step a b p c NI PI) as ST. cbv zeta in ST.
  destruct (rt_step H _ a b (rt c) (mg c)) as [[m1 pc1]| | |] eqn:E; cbn [bind fst snd] in RE; try discriminate.
  destruct ST as (c1 & B & M1 & R1 & P1 & T1 & S1 & C1 & O1).
  assert (D : pc1 = RIdle \/ pc1 <> RIdle) by (destruct pc1; (left; reflexivity) || (right; discriminate)).
  destruct D as [ID|NID].
  - exists 0, c1. cbn [repeat runs]. rewrite B. rewrite ID in RE. cbn in RE. injection RE as <-.
    repeat (split; [congruence || assumption|]). intros j J. lia.
  - destruct (left_step _ _ _ _ _ _ _ NI E) as [ID|LS]; [contradiction|].
    destruct (IH c1 m') as (n & c' & RN & R2 & M2 & P2 & T2 & S2 & C2 & O2 & MID); auto; try congruence.
    + rewrite M1, R1. lia.
    + exists (S n), c'. split; [|split; [|split; [|split; [|split; [|split; [|split; [|split]]]]]]]; try congruence; auto.
      * change (repeat (LRt a b) (S (S n))) with (@LRt W a b :: repeat (LRt a b) (S n)). cbn [runs]. rewrite B. exact RN.
      * intros j J. destruct j as [|j].
        -- exists c1. cbn [repeat runs]. rewrite B. split; [reflexivity|congruence].
        -- destruct (MID j) as (d & RD & ND); [lia|]. exists d. split; [|exact ND].
           change (repeat (LRt a b) (S (S j))) with (@LRt W a b :: repeat (LRt a b) (S j)). cbn [runs]. rewrite B. exact RD.
Qed.

(** and conversely what such a run computes *)
Lemma finished a b p : forall n c c', rt c <> RIdle -> pub_is p c -> runs H (repeat (LRt a b) (S n)) c = Some c' -> rt c' = RIdle ->
  (forall j, j < n -> exists d, runs H (repeat (LRt a b) (S j)) c = Some d /\ rt d <> RIdle) ->
  rest (match p with None => true | _ => false end) a b (rt c) (mg c) = Ok (mg c').
Proof.
  induction n as [|n IH]; intros c c' NI PI RN ID MID; rewrite rest_step by assumption; pose proof (alone_step a b p c NI PI) as ST; cbv zeta in ST;
    destruct (rt_step H _ a b (rt c) (mg c)) as [[m1 pc1]| | |] eqn:E; cbn [repeat runs bind fst snd] in *;
    try (rewrite ST in RN; discriminate); destruct ST as (c1 & B & M1 & R1 & P1 & _); rewrite B in RN.
  - injection RN as <-. rewrite <- R1, ID, M1. reflexivity.
  - rewrite <- M1, <- R1. apply IH; auto.
    + destruct (MID 0) as (d & RD & ND); [lia|]. cbn [repeat runs] in RD. rewrite B in RD. injection RD as <-. exact ND.
    + intros j J. destruct (MID (S j)) as (d & RD & ND); [lia|]. exists d. split; [|exact ND]. cbn [repeat runs] in RD. rewrite B in RD. exact RD.
Qed.

Lemma first_step a b (c : config) : rt c = RIdle -> exists c1, bstep H (LRt a b) c = Some (Ok c1) /\ mg c1 = mg c /\ rt c1 = RGot (cur (mg c)) /\
  pub_is (pub_lock c) c1 /\ same_rest c c1.
Proof.
  intros RI. cbn [bstep]. unfold do_rt. rewrite RI. cbn [rt_step bind]. eexists. split; [reflexivity|].
  cbn [mg rt]. unfold pub_is, same_rest. cbn [rt thr srv_lock ctl_lock pub_lock rosok rt_pub]. repeat split.
Qed.

Theorem cycle_is_update a b c m' : rt c = RIdle ->
  (update H (a && pub_free c) b (mg c) = Ok m' <-> exists c', whole_cycle H a b c c' /\ mg c' = m').
Proof.
  intros RI. destruct (first_step a b c RI) as (c1 & B & M1 & R1 & P1 & (T1 & S1 & C1 & Q1 & O1)).
  assert (NI : rt c1 <> RIdle) by (rewrite R1; discriminate).
  assert (RE : rest (pub_free c) a b (rt c1) (mg c1) = update H (a && pub_free c) b (mg c)) by (rewrite R1, M1, rest_idle, andb_comm; reflexivity).
  split.
  - intros U. rewrite <- RE in U. destruct (finish a b (pub_lock c) _ c1 m' (Nat.lt_succ_diag_r _) NI P1 U) as (n & c' & RN & R2 & M2 & P2 & _ & _ & _ & _ & MID).
    exists c'. split; [|exact M2]. split; [exact RI|]. split; [exact R2|]. exists (S n).
    split; [change (repeat (LRt a b) (S (S n))) with (@LRt W a b :: repeat (LRt a b) (S n)); cbn [runs]; rewrite B; exact RN|].
    intros j J. destruct j as [|j]; [exists c1; cbn [repeat runs]; rewrite B; auto|].
    destruct (MID j) as (d & RD & ND); [lia|]. exists d. split; [|exact ND].
    change (repeat (LRt a b) (S (S j))) with (@LRt W a b :: repeat (LRt a b) (S j)). cbn [runs]. rewrite B. exact RD.
  - intros (c' & (_ & R2 & n & RN & MID) & <-). rewrite <- RE. destruct n as [|n].
    { cbn [repeat runs] in RN. rewrite B in RN. injection RN as <-. congruence. }
    change (repeat (LRt a b) (S (S n))) with (@LRt W a b :: repeat (LRt a b) (S n)) in RN. cbn [runs] in RN. rewrite B in RN.
    apply (finished a b (pub_lock c) n c1 c'); auto. intros j J. destruct (MID (S j)) as (d & RD & ND); [lia|]. exists d. split; [|exact ND].
    change (repeat (LRt a b) (S (S j))) with (@LRt W a b :: repeat (LRt a b) (S j)) in RD. cbn [runs] in RD. rewrite B in RD. exact RD.
Qed.

Theorem cycle_same_rest a b c c' : whole_cycle H a b c c' -> same_rest c c'.
Proof.
  intros WC. assert (UU : update H (a && pub_free c) b (mg c) = Ok (mg c')) by (apply cycle_is_update; [apply WC|eauto]).
  destruct WC as (RI & R2 & n & RN & MID).
  destruct (first_step a b c RI) as (c1 & B & M1 & R1 & P1 & (T1 & S1 & C1 & Q1 & O1)).
  assert (NI : rt c1 <> RIdle) by (rewrite R1; discriminate).
  assert (RE : rest (pub_free c) a b (rt c1) (mg c1) = Ok (mg c')) by (rewrite R1, M1, rest_idle, andb_comm; exact UU).
  destruct (finish a b (pub_lock c) _ c1 _ (Nat.lt_succ_diag_r _) NI P1 RE) as (n' & d & RN' & R2' & M2 & P2 & T2 & S2 & C2 & O2 & MID').
  assert (d = c').
  { destruct n as [|n]; [cbn [repeat runs] in RN; rewrite B in RN; injection RN as <-; congruence|].
    change (repeat (LRt a b) (S (S n))) with (@LRt W a b :: repeat (LRt a b) (S n)) in RN. cbn [runs] in RN. rewrite B in RN.
    destruct (lt_eq_lt_dec n n') as [[L| ->]|L].
    - destruct (MID' n L) as (e & RE' & NE). congruence.
    - congruence.
    - destruct (MID (S n')) as (e & RE' & NE); [lia|].
      change (repeat (LRt a b) (S (S n'))) with (@LRt W a b :: repeat (LRt a b) (S n')) in RE'. cbn [runs] in RE'. rewrite B in RE'. congruence. }
  subst d. unfold pub_is in P2. rewrite R2' in P2. repeat split; try congruence.
Qed.

(* ------------------------------------------------------------------ after a cycle *)
Lemma sl_fold (f : mgr -> ptr -> mgr) (ps : list ptr) : (forall m p, steadyl m (f m p)) -> forall m, steadyl m (fold_left f ps m).
Proof. intros F. induction ps as [|p ps IH]; intros m; cbn [fold_left]; [apply sl_refl|]. eapply sl_trans; [apply F|apply IH]. Qed.
Lemma restart_one_sl m i m' : rt_restart_one H m i = Ok m' -> steadyl m m'.
Proof.
  unfold rt_restart_one. destruct (rt_nth m i) as [e| | |]; cbn [bind]; try discriminate. destruct (isRunning _); [|intros [= <-]; apply sl_refl].
  pose proof (sl_stop (e_ptr e) m) as A. destruct (stop_ctrl H (e_ptr e) m) as [x m2]. cbn [snd] in A.
  pose proof (sl_start (e_ptr e) m2) as B. destruct (start_ctrl H (e_ptr e) m2) as [y m3]. cbn [snd] in B. intros [= <-]. eapply sl_trans; eauto.
Qed.
Lemma update_settles a b m m' : update H a b m = Ok m' -> cur m' = cur m /\ used m' = Some (cur m') /\ please m' = false.
Proof.
  unfold update. intros E.
  destruct (rt_restart H (rt_pre H (rt_use (cur m) m))) as [m1| | |] eqn:E1; cbn [bind] in E; try discriminate.
  destruct (rt_update_all H m1) as [m2| | |] eqn:E2; cbn [bind] in E; try discriminate.
  destruct (publishMechanismStatistics H a (rt_post H m2)) as [m3| | |] eqn:E3; cbn [bind] in E; try discriminate.
  destruct (publishJointState H b m3) as [m4| | |] eqn:E4; cbn [bind] in E; try discriminate. injection E as <-.
  assert (S1 : steadyl (rt_use (cur m) m) m1).
  { eapply sl_trans; [apply sl_pre|]. unfold rt_restart in E1. destruct (rt_list _) as [l| | |]; cbn [bind] in E1; try discriminate.
    destruct (rt_must_restart H _); cbn [bind] in E1.
    - destruct (for_each _ _ _) as [mx| | |] eqn:F; cbn [bind] in E1; try discriminate. injection E1 as <-. exact (for_each_list _ _ restart_one_sl _ _ F).
    - injection E1 as <-. repeat split. }
  assert (S2 : steadyl m1 m2).
  { unfold rt_update_all in E2. destruct (rt_list m1) as [l| | |]; cbn [bind] in E2; try discriminate. exact (for_each_list _ _ sl_update_one _ _ E2). }
  assert (S3 : steadyl (rt_post H m2) m3).
  { unfold publishMechanismStatistics in E3. pose proof (sl_now (rt_post H m2)) as N. destruct (now H _) as [t mx]. cbn [snd] in N. eapply sl_trans; [exact N|].
    destruct (mech_due H t mx); [destruct a|]; try (injection E3 as <-; apply sl_refl). exact (sl_fill _ _ _ E3). }
  pose proof (sl_trans _ _ _ S1 (sl_trans _ _ _ S2 (sl_trans _ _ _ (sl_post m2) (sl_trans _ _ _ S3 (sl_pubjs _ _ _ E4))))) as S.
  assert (P4 : steadyl m4 (rt_switch H m4) \/ (cur (rt_switch H m4) = cur m4 /\ used (rt_switch H m4) = used m4 /\ please (rt_switch H m4) = false)).
  { unfold rt_switch. destruct (please m4); [right|left; apply sl_refl].
    pose proof (sl_fold (rt_stop_one H) (stop_req m4) sl_stop_one m4) as A. set (mx := fold_left (rt_stop_one H) (stop_req m4) m4) in *.
    pose proof (sl_fold (rt_start_one H) (start_req mx) sl_start_one mx) as B. pose proof (sl_trans _ _ _ A B) as C. destruct C as (_ & _ & C1 & _ & _ & C2). cbn. auto. }
  assert (PL : please (rt_switch H m4) = false) by (unfold rt_switch; destruct (please m4) eqn:Q; [reflexivity|exact Q]).
  destruct S as (_ & _ & S5 & _ & _ & S6). cbn in S5, S6.
  assert (X : cur (rt_switch H m4) = cur m4 /\ used (rt_switch H m4) = used m4) by (destruct P4 as [(_ & _ & A & _ & _ & B)|(A & B & _)]; auto).
  destruct X as [X1 X2]. split; [congruence|]. split; [congruence|exact PL].
Qed.

(* ------------------------------------------------------------------ one call *)
Lemma runs_one l c c' : bstep H l c = Some (Ok c') -> forall ls, runs H (l :: ls) c = runs H ls c'.
Proof. intros E ls. cbn [runs]. rewrite E. reflexivity. Qed.

(** from the moment the cycle has taken its list *)
Lemma finish_begin a b (c : config) m' : rt c = RBegin -> pub_lock c = None ->
  (do m <- rt_restart H (rt_pre H (mg c)); do m <- rt_update_all H m; do m <- publishMechanismStatistics H a (rt_post H m);
   do m <- publishJointState H b m; Ok (rt_switch H m)) = Ok m' ->
  exists n c', runs H (repeat (LRt a b) n) c = Some c' /\ rt c' = RIdle /\ mg c' = m' /\ same_rest c c'.
Proof.
  intros R P U. destruct (finish a b None (S (left (rt c) (mg c))) c m') as (n & c' & RN & R2 & M2 & P2 & T2 & S2 & C2 & O2 & _); auto.
  - rewrite R. discriminate.
  - unfold pub_is. rewrite R. exact P.
  - rewrite R. cbn [rest]. unfold rest_begin, rest_pub1, rest_pub2. cbn [andb]. exact U.
  - exists (S n), c'. split; [exact RN|]. split; [exact R2|]. split; [exact M2|]. unfold pub_is in P2. rewrite R2 in P2. repeat split; congruence.
Qed.
Lemma update_used a b m m' : used m = Some (cur m) -> update H a b m = Ok m' ->
  (do m <- rt_restart H (rt_pre H m); do m <- rt_update_all H m; do m <- publishMechanismStatistics H a (rt_post H m);
   do m <- publishJointState H b m; Ok (rt_switch H m)) = Ok m'.
Proof. intros U E. unfold update in E. replace (rt_use (cur m) m) with m in E; [exact E|]. unfold rt_use. rewrite <- U. destruct m; reflexivity. Qed.

Lemma whole a b (c : config) m' : rt c = RIdle -> pub_lock c = None -> update H a b (mg c) = Ok m' ->
  exists n c', runs H (repeat (LRt a b) n) c = Some c' /\ rt c' = RIdle /\ mg c' = m' /\ same_rest c c'.
Proof.
  intros R P U. assert (X : update H (a && pub_free c) b (mg c) = Ok m') by (unfold pub_free; rewrite P, andb_true_r; exact U).
  apply (cycle_is_update a b c m' R) in X. destruct X as (c' & WC & M). pose proof (cycle_same_rest _ _ _ _ WC) as SR.
  destruct WC as (_ & R' & n & RN & _). exists (S n), c'. auto.
Qed.
End Seq.
