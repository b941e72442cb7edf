(** Level B: bounds on the realtime thread's steps, waits, blocking. *)
From Coq Require Import List String Arith Bool ZArith Lia Sorting.Permutation.
From Verif.Model Require Import Base Scheduler Controller Manager ManagerConc.
From Verif.Spec Require Import SchedulerSpec ManagerSpec ConcSpec.
From Verif.Proofs Require Import SchedulerProofs ManagerProofs ManagerInv ManagerOps ConcBase ConcInv ConcTrace ConcHist ConcCycle.
Import ListNotations.

Section CProg.
Context {W : Type} (H : hooks W).
Notation mgr := (mgr W).
Notation config := (config W).
Hypothesis Hpm : (0 < h_per_mech H)%Z.
Hypothesis Hpj : (0 < h_per_js H)%Z.

Lemma live_inv c : live H c -> InvB c.
Proof.
  intros (m & ls & Hr & Hp & S & Ho). eapply steady_inv; eauto. now apply (reachable_inv H).
Qed.
Lemma live_ros c : live H c -> rosok c = true.
Proof. intros (m & ls & Hr & Hp & S & Ho). exact Ho. Qed.
Lemma live_step c l c' : live H c -> bstep H l c = Some (Ok c') -> (forall a b, l = LRt a b -> ~ stale_start c) ->
  rosok c' = true -> live H c'.
Proof.
  intros (m & ls & Hr & Hp & S & Ho) E Hst Hr'. exists m, (ls ++ [l]). repeat (split; auto). eapply steady_snoc; eauto.
Qed.

Lemma segment_live P Q c n c' : live H c -> segment H P Q c n c' -> rosok c' = true -> live H c'.
Proof.
  intros L S. induction S as [c|c n c1 l c2 S IH E Hst HP]; intros Hr; auto.
  apply (live_step c1 l c2); auto. apply IH; auto. eapply rosok_back; eauto.
Qed.

(** each step of a segment happens between live configurations *)
Lemma segment_ind' P Q c0 (K : nat -> config -> Prop) :
  live H c0 -> K 0 c0 ->
  (forall n c1 l c2, live H c1 -> live H c2 -> segment H P Q c0 n c1 -> K n c1 -> bstep H l c1 = Some (Ok c2) ->
     (forall a b, l = LRt a b -> ~ stale_start c1) -> P c2 -> K (n + if Q c1 l c2 then 1 else 0) c2) ->
  forall n c, segment H P Q c0 n c -> rosok c = true -> K n c.
Proof.
  intros L K0 Hs n c S. induction S as [c|c n c1 l c2 S IH E Hst HP]; intros Hr; auto.
  assert (Hr1 : rosok c1 = true) by (eapply rosok_back; eauto).
  assert (L1 : live H c1) by (eapply segment_live; eauto).
  apply (Hs n c1 l c2); auto. eapply live_step; eauto.
Qed.

(* ------------------------------------------------------------------ the length of a cycle *)
Definition used_len (m : mgr) : nat := match used m with Some b => List.length (lists m b) | None => 0 end.

Definition left1 (c : config) : nat :=
  let n := used_len (mg c) in
  match rt c with
  | RBegin => 7 + 3 * n
  | RRestart i => 6 + n + 2 * (n - i)
  | RRestarting i => 7 + n + 2 * (n - S i)
  | RUpdate i => 5 + (n - i) | REffort => 4
  | RPub1 => 3 | RFill _ => 2 | RPub2 => 1
  | _ => 0
  end.
Definition left2 (c : config) : nat :=
  match rt c with
  | RStop ps => List.length ps + List.length (start_req (mg c)) + 3
  | RStart ps => List.length ps + 2
  | REnd => 1
  | _ => 0
  end.
Definition second (pc : rpc) : bool := match pc with RStop _ | RStart _ | REnd => true | _ => false end.

Lemma frame_used_len (m m' : mgr) : frame m m' -> used_len m' = used_len m.
Proof. intros (E1&_&_&E4&_). unfold used_len. now rewrite E4, E1. Qed.

Definition cycle_bound (n0 n : nat) (c : config) : Prop :=
  used_len (mg c) = n0 /\
  match rt c with
  | RIdle | RGot _ => False
  | RStop _ | RStart _ | REnd =>
      n + left2 c <= 11 + 3 * n0 + List.length (stop_req (mg c)) + List.length (start_req (mg c))
  | _ => n + left1 c <= 7 + 3 * n0
  end.

Lemma bound_client n0 n c c' : InvB c -> client c c' -> cycle_bound n0 n c -> cycle_bound n0 n c'.
Proof.
  intros I Cl (B1 & B2). pose proof Cl as [Er Eu Epv En Eh El Es Ec Eev].
  assert (Eul : used_len (mg c') = used_len (mg c)).
  { unfold used_len. rewrite Eu. destruct (used (mg c)) as [b|] eqn:Hu; auto. now rewrite (proj1 (El b eq_refl)). }
  assert (Hreq : please (mg c) = true -> start_req (mg c') = start_req (mg c) /\ stop_req (mg c') = stop_req (mg c)).
  { intros Hp. destruct Eev as (evs & _ & [X|[X|X]]); [tauto| |]; destruct X as (_ & X & _); congruence. }
  split; [congruence|]. unfold left1, left2 in *. rewrite Er, Eul. pose proof (ib_rt c I) as R.
  destruct (rt c); auto.
  - destruct R as (_ & R & _). destruct (Hreq R) as [-> ->]. exact B2.
  - destruct R as (_ & R & _). destruct (Hreq R) as [-> ->]. exact B2.
  - destruct R as (_ & R). destruct (Hreq R) as [-> ->]. exact B2.
Qed.

Lemma bound_rt n0 n a b c c' : InvB c -> ~ stale_start c -> do_rt H a b c = Ok c' -> rt c' <> RIdle ->
  cycle_bound n0 n c -> cycle_bound n0 (n + 1) c'.
Proof.
  intros I Hst E Hi (B1 & B2).
  destruct (do_rt_desc H Hpm Hpj a b c c' I Hst E) as (evs & T & D & _).
  unfold rt_desc in D. unfold cycle_bound, left1, left2 in *.
  assert (Hul : frame (mg c) (mg c') -> used_len (mg c') = used_len (mg c)) by apply frame_used_len.
  pose proof (ib_rt c I) as R.
  destruct (rt c) as [|x| |i|i|i| | |t| | |ps|ps|] eqn:Hr; try tauto.
  - destruct D as (F & _ & _ & Ep). rewrite (Hul F). split; auto. destruct Ep as [[-> _]| ->]; lia.
  - destruct D as (F & b0 & Hb & D). rewrite (Hul F). split; auto.
    assert (Hn : used_len (mg c) = List.length (lists (mg c) b0)) by (unfold used_len; now rewrite Hb).
    pose proof (used_good c b0 I Hb) as G.
    destruct D as [(e & He & Hin & D)|(Hl & _ & Ep & _)].
    + assert (i < List.length (lists (mg c) b0)).
      { rewrite <- (order_in_list_length _ _ G). apply nth_error_Some. congruence. }
      destruct (runningb (mg c) (e_ptr e)); destruct D as (_ & -> & _); lia.
    + rewrite Ep. lia.
  - destruct D as (F & b0 & e & Hb & He & _ & _ & Ep & _). rewrite (Hul F), Ep. split; auto. lia.
  - destruct D as (F & _ & b0 & Hb & D). rewrite (Hul F). split; auto.
    assert (Hn : used_len (mg c) = List.length (lists (mg c) b0)) by (unfold used_len; now rewrite Hb).
    pose proof (used_good c b0 I Hb) as G.
    destruct D as [(e & He & Hin & -> & _)|(Hl & _ & ->)]; [|lia].
    assert (i < List.length (lists (mg c) b0)).
    { rewrite <- (order_in_list_length _ _ G). apply nth_error_Some. congruence. }
    lia.
  - destruct D as (F & _ & _ & ->). rewrite (Hul F). split; auto. lia.
  - destruct D as (F & _ & _ & Ep). rewrite (Hul F). split; auto. destruct Ep as [->|(t & ->)]; lia.
  - destruct D as (F & _ & -> & _). rewrite (Hul F). split; auto. lia.
  - destruct D as (F & _ & -> & _). rewrite (Hul F). split; auto. lia.
  - destruct D as (-> & _ & Ep). split; auto. rewrite Ep. destruct (please (mg c)); [|congruence].
    unfold left2. simpl. lia.
  - destruct ps as [|p ps].
    + destruct D as (-> & _ & ->). split; auto. simpl in *. lia.
    + destruct D as (F & _ & _ & -> & _). rewrite (Hul F). split; auto. pose proof F as (_&_&_&_&_&E6&E7&_).
      rewrite E6, E7. simpl in *. lia.
  - destruct ps as [|p ps].
    + destruct D as (-> & _ & ->). split; auto. simpl in *. lia.
    + destruct D as (F & _ & _ & -> & _). rewrite (Hul F). split; auto. pose proof F as (_&_&_&_&_&E6&E7&_).
      rewrite E6, E7. simpl in *. lia.
Qed.

Lemma client_or_rt l c c' : live H c -> live H c' -> bstep H l c = Some (Ok c') ->
  (exists a b, l = LRt a b /\ do_rt H a b c = Ok c') \/ (client c c' /\ is_rt_step c l c' = false).
Proof.
  intros L L' E. destruct l as [a b|k|k srv pr| | | |f]; [left|right|right|right|right|right|right].
  - exists a, b. cbn [bstep] in E. inversion E; auto.
  - destruct (step_cases H _ c c' (live_inv c L) (live_ros c L) E (live_ros c' L')) as [(a & b & X & _)|X]; [discriminate|auto].
  - destruct (step_cases H _ c c' (live_inv c L) (live_ros c L) E (live_ros c' L')) as [(a & b & X & _)|X]; [discriminate|auto].
  - destruct (step_cases H _ c c' (live_inv c L) (live_ros c L) E (live_ros c' L')) as [(a & b & X & _)|X]; [discriminate|auto].
  - destruct (step_cases H _ c c' (live_inv c L) (live_ros c L) E (live_ros c' L')) as [(a & b & X & _)|X]; [discriminate|auto].
  - destruct (step_cases H _ c c' (live_inv c L) (live_ros c L) E (live_ros c' L')) as [(a & b & X & _)|X]; [discriminate|auto].
  - destruct (step_cases H _ c c' (live_inv c L) (live_ros c L) E (live_ros c' L')) as [(a & b & X & _)|X]; [discriminate|auto].
Qed.

Theorem cycle_bounded c0 b n c :
  live H c0 -> rt c0 = RBegin -> used (mg c0) = Some b ->
  segment H (fun c => rt c <> RIdle) is_rt_step c0 n c -> rosok c = true ->
  n <= 10 + 3 * List.length (lists (mg c0) b) + List.length (stop_req (mg c)) + List.length (start_req (mg c)).
Proof.
  intros L Hr Hu S Ho.
  assert (X : cycle_bound (List.length (lists (mg c0) b)) n c).
  { revert n c S Ho. apply segment_ind'; auto.
    - unfold cycle_bound, left1, used_len. rewrite Hr, Hu. split; auto; lia.
    - intros n c1 l c2 L1 L2 S K E Hst HP.
      destruct (client_or_rt l c1 c2 L1 L2 E) as [(a & b' & -> & E')|(Cl & ->)].
      + cbn [is_rt_step]. apply (bound_rt _ n a b' c1 c2); auto using live_inv. apply (Hst a b' eq_refl).
      + rewrite Nat.add_0_r. apply (bound_client _ n c1 c2); auto using live_inv. }
  destruct X as (X1 & X2). unfold left2 in X2. destruct (rt c); try tauto; lia.
Qed.

(* ------------------------------------------------------------------ waiting for the realtime thread *)
Definition lag (c : config) : nat :=
  if former_in_use (mg c) then
    match rt c with RGot b => if Bool.eqb b (cur (mg c)) then 1 else 2 | _ => 1 end
  else 0.

Lemma waits_crit k (c : config) : waits_for_list k c -> crit (thr c k) = true.
Proof. unfold waits_for_list. destruct (thr c k); try tauto; reflexivity. Qed.
Lemma waits_sw_crit k (c : config) : waits_for_switch k c -> crit (thr c k) = true.
Proof. unfold waits_for_switch. destruct (thr c k); try tauto; reflexivity. Qed.

(** while [k] waits nobody changes the current list *)
Lemma wait_stable k l c c' : live H c -> waits_for_list k c -> waits_for_list k c' -> bstep H l c = Some (Ok c') ->
  is_rt_step c l c' = false -> rosok c' = true ->
  cur (mg c') = cur (mg c) /\ used (mg c') = used (mg c) /\ rt c' = rt c.
Proof.
  intros L Hw Hw' E Hl Hr. pose proof (live_inv c L) as I. pose proof (live_ros c L) as Ho.
  assert (Hlock : ctl_lock c = Some k) by (apply (ib_ctl c I), waits_crit; auto).
  destruct l as [a b|j|j srv pr| | | |f]; cbn [bstep] in E; try discriminate.
  - assert (Hj : j <> k -> crit (thr c j) = false).
    { intros Hne. destruct (crit (thr c j)) eqn:X; auto. apply (ib_ctl c I) in X. congruence. }
    destruct (Nat.eq_dec j k) as [->|Hne].
    + unfold waits_for_list in Hw, Hw'. destruct (thr c k) eqn:Ht; try tauto; cbn [th_step] in E.
      * destruct (rosok c && former_in_use (mg c)); inversion E; subst; auto.
      * destruct (negb (rosok c)); inversion E; subst; auto.
    + specialize (Hj Hne). destruct (thr c j) as [|pr|srv pr|srv cl kk|srv cl kk|srv cl kk|srv cl kk|srv cl kk|srv cl kk|srv cl kk|srv cl kk|srv cl kk|srv kk|srv kk]; try discriminate; cbn [th_step] in E.
      * destruct (srv_lock c); inversion E; subst; auto.
      * destruct pr; try discriminate; try (rewrite Hlock in E; discriminate); inversion E; subst; auto.
        destruct srv; auto.
      * rewrite Hlock in E. discriminate.
  - destruct (thr c j); inversion E; subst; auto.
  - destruct (pub_lock c); inversion E; subst; auto.
  - destruct (pub_lock c) as [[| |]|]; inversion E; subst; auto.
  - inversion E; subst; auto.
  - inversion E; subst; auto.
Qed.

Lemma wait_rt k a b c c' : live H c -> ~ stale_start c -> waits_for_list k c -> do_rt H a b c = Ok c' ->
  lag c' <= lag c - (if takes_list c (LRt a b) c' then 1 else 0).
Proof.
  intros L Hst Hw E. pose proof (live_inv c L) as I.
  destruct (do_rt_desc H Hpm Hpj a b c c' I Hst E) as (evs & T & D & _).
  unfold rt_desc in D. unfold lag, takes_list, former_in_use.
  assert (Hfr : frame (mg c) (mg c') -> used (mg c') = used (mg c) /\ cur (mg c') = cur (mg c)).
  { intros (_&_&E3&E4&_). auto. }
  pose proof (ib_rt c I) as R.
  destruct (rt c) as [|x| |i|i|i| | |t| | |ps|ps|] eqn:Hr.
  - destruct D as (-> & -> & _). rewrite Bool.eqb_reflx. lia.
  - destruct D as (-> & -> & _). simpl in R. simpl.
    destruct (used (mg c)) as [u|] eqn:Hu.
    + destruct x, u, (cur (mg c)); simpl; try lia; exfalso; assert (X := R eq_refl); discriminate X.
    + assert (x = cur (mg c)).
      { destruct (Bool.bool_dec x (cur (mg c))); auto. exfalso. apply Hst. split; auto. eauto. }
      subst x. destruct (cur (mg c)); simpl; lia.
  - destruct D as (F & _ & _ & Ep). destruct (Hfr F) as [-> ->]. destruct Ep as [[-> _]| ->]; lia.
  - destruct D as (F & b0 & Hb & D). destruct (Hfr F) as [-> ->].
    destruct D as [(e & He & Hin & D)|(Hl & _ & -> & _)]; [|lia].
    destruct (runningb (mg c) (e_ptr e)); destruct D as (_ & -> & _); lia.
  - destruct D as (F & b0 & e & Hb & He & _ & _ & -> & _). destruct (Hfr F) as [-> ->]. lia.
  - destruct D as (F & _ & b0 & Hb & [(e & He & Hin & -> & _)|(Hl & _ & ->)]); destruct (Hfr F) as [-> ->]; lia.
  - destruct D as (F & _ & _ & ->). destruct (Hfr F) as [-> ->]. lia.
  - destruct D as (F & _ & _ & Ep). destruct (Hfr F) as [-> ->]. destruct Ep as [->|(t & ->)]; lia.
  - destruct D as (F & _ & -> & _). destruct (Hfr F) as [-> ->]. lia.
  - destruct D as (F & _ & -> & _). destruct (Hfr F) as [-> ->]. lia.
  - destruct D as (-> & _ & ->). destruct (please (mg c)); lia.
  - destruct ps as [|p ps]; [destruct D as (-> & _ & ->)|destruct D as (F & _ & _ & -> & _); destruct (Hfr F) as [-> ->]]; lia.
  - destruct ps as [|p ps]; [destruct D as (-> & _ & ->)|destruct D as (F & _ & _ & -> & _); destruct (Hfr F) as [-> ->]]; lia.
  - destruct D as (-> & _ & ->). simpl. lia.
Qed.

Theorem list_handover k c0 n c :
  live H c0 -> waits_for_list k c0 -> segment H (waits_for_list k) takes_list c0 n c -> rosok c = true -> 2 <= n ->
  former_in_use (mg c) = false.
Proof.
  intros L Hw S Ho Hn.
  assert (X : waits_for_list k c /\ lag c <= 2 - n).
  { revert n c S Ho Hn. intros n c S Ho _. revert n c S Ho. apply segment_ind'; auto.
    - split; auto. unfold lag. destruct (former_in_use (mg c0)); [|lia]. destruct (rt c0); try lia. destruct (Bool.eqb b _); lia.
    - intros n c1 l c2 L1 L2 S (Hw1 & K) E Hst HP. split; auto.
      destruct (client_or_rt l c1 c2 L1 L2 E) as [(a & b' & -> & E')|(Cl & Hl)].
      + pose proof (wait_rt k a b' c1 c2 L1 (Hst a b' eq_refl) Hw1 E'). destruct (takes_list c1 (LRt a b') c2); lia.
      + destruct (wait_stable k l c1 c2 L1 Hw1 HP E Hl (live_ros c2 L2)) as (A & B & C).
        assert (Et : takes_list c1 l c2 = false) by (destruct l; auto; discriminate).
        rewrite Et, Nat.add_0_r. unfold lag, former_in_use in *. now rewrite A, B, C. }
  destruct X as (_ & X). unfold lag in X. destruct (former_in_use (mg c)); auto.
  destruct (rt c); try lia. destruct (Bool.eqb b _); lia.
Qed.

(* ------------------------------------------------------------------ waiting for a switch *)
Lemma sw_client k l c c' : live H c -> waits_for_switch k c -> bstep H l c = Some (Ok c') -> rosok c' = true ->
  is_rt_step c l c' = false -> client c c' -> please (mg c) = false -> please (mg c') = false.
Proof.
  intros L Hw E Hr Hl Cl Hp. pose proof (live_inv c L) as I.
  destruct (cl_evs c c' Cl) as (evs & _ & [X|[X|X]]).
  - destruct X as (_ & -> & _). exact Hp.
  - destruct X as (_ & _ & X & _). exfalso.
    assert (Y : swh c = true).
    { unfold swh. rewrite (holder_eq c k I (waits_sw_crit k c Hw)). unfold waits_for_switch in Hw. destruct (thr c k); try tauto. }
    congruence.
  - destruct X as (_ & _ & _ & X & _). exact X.
Qed.

Theorem switch_wait k c0 n c :
  live H c0 -> waits_for_switch k c0 -> segment H (waits_for_switch k) ends_cycle c0 n c -> rosok c = true -> 1 <= n ->
  please (mg c) = false.
Proof.
  intros L Hw S Ho Hn.
  assert (X : waits_for_switch k c /\ (please (mg c) = false \/ n = 0)).
  { revert n c S Ho Hn. intros n c S Ho _. revert n c S Ho. apply segment_ind'; auto.
    intros n c1 l c2 L1 L2 S (Hw1 & K) E Hst HP. split; auto.
    pose proof (live_inv c1 L1) as I1.
    destruct (client_or_rt l c1 c2 L1 L2 E) as [(a & b' & -> & E')|(Cl & Hl)].
    - destruct (do_rt_desc H Hpm Hpj a b' c1 c2 I1 (Hst a b' eq_refl) E') as (evs & T & D & _).
      unfold rt_desc in D. unfold ends_cycle.
      assert (Hfr : frame (mg c1) (mg c2) -> please (mg c2) = please (mg c1)).
      { intros (_&_&_&_&_&_&_&E8&_). exact E8. }
      pose proof (ib_rt c1 I1) as R.
      destruct (rt c1) as [|x| |i|i|i| | |t| | |ps|ps|] eqn:Hr.
      + destruct D as (-> & -> & _). rewrite Nat.add_0_r. exact K.
      + destruct D as (-> & -> & _). rewrite Nat.add_0_r. exact K.
      + destruct D as (F & _ & _ & Ep). rewrite (Hfr F). destruct Ep as [[-> _]| ->]; rewrite Nat.add_0_r; exact K.
      + destruct D as (F & b0 & Hb & D). rewrite (Hfr F).
        destruct D as [(e & He & Hin & D)|(Hl & _ & -> & _)]; [|rewrite Nat.add_0_r; exact K].
        destruct (runningb (mg c1) (e_ptr e)); destruct D as (_ & -> & _); rewrite Nat.add_0_r; exact K.
      + destruct D as (F & b0 & e & Hb & He & _ & _ & -> & _). rewrite (Hfr F), Nat.add_0_r. exact K.
      + destruct D as (F & _ & b0 & Hb & [(e & He & Hin & -> & _)|(Hl & _ & ->)]); rewrite (Hfr F), Nat.add_0_r; exact K.
      + destruct D as (F & _ & _ & ->). rewrite (Hfr F), Nat.add_0_r. exact K.
      + destruct D as (F & _ & _ & Ep). rewrite (Hfr F). destruct Ep as [->|(t & ->)]; rewrite Nat.add_0_r; exact K.
      + destruct D as (F & _ & -> & _). rewrite (Hfr F), Nat.add_0_r. exact K.
      + destruct D as (F & _ & -> & _). rewrite (Hfr F), Nat.add_0_r. exact K.
      + destruct D as (-> & _ & ->). destruct (please (mg c1)); [rewrite Nat.add_0_r; exact K|]. auto.
      + destruct ps as [|p ps]; [destruct D as (-> & _ & ->)|destruct D as (F & _ & _ & -> & _); rewrite (Hfr F)]; rewrite Nat.add_0_r; exact K.
      + destruct ps as [|p ps]; [destruct D as (-> & _ & ->)|destruct D as (F & _ & _ & -> & _); rewrite (Hfr F)]; rewrite Nat.add_0_r; exact K.
      + destruct D as (-> & _ & ->). left. reflexivity.
    - assert (Et : ends_cycle c1 l c2 = false) by (destruct l; auto; discriminate).
      rewrite Et, Nat.add_0_r. destruct K as [K| ->]; auto. left.
      apply (sw_client k l c1 c2); auto using live_ros. }
  destruct X as (_ & [X|X]); auto. lia.
Qed.

(* ------------------------------------------------------------------ blocking *)
Theorem never_blocked a b c : live H c -> exists c', bstep H (LRt a b) c = Some (Ok c').
Proof.
  intros L. pose proof (live_inv c L) as I. cbn [bstep].
  assert (D : stale_start c \/ ~ stale_start c).
  { unfold stale_start. destruct (used (mg c)) as [u|]; [right; intros [X _]; discriminate|].
    destruct (rt c) as [|x| | | | | | | | | | | |] eqn:Hr; try (right; intros (_ & y & X & _); discriminate).
    destruct (Bool.bool_dec x (cur (mg c))) as [->|Hne].
    - right. intros (_ & y & X & Y). inversion X; subst. auto.
    - left. split; auto. eauto. }
  destruct D as [(Hu & x & Hr & _)|D].
  - unfold do_rt. rewrite Hr. simpl. eexists. reflexivity.
  - destruct (do_rt_inv H c a b Hpm Hpj I D) as (c' & -> & _). eauto.
Qed.

(** a thread blocked on a lock: somebody who can step is responsible *)
Theorem no_deadlock k c : live H c -> thr c k <> TIdle -> th_step H k (thr c k) c = None ->
  (exists j r, j <> k /\ th_step H j (thr c j) c = Some r) \/ pub_lock c = Some ORt \/ pub_lock c = Some OPublisher.
Proof.
  intros L Hi Hb. pose proof (live_inv c L) as I.
  (* a thread waiting for pub_mech_stats_ *)
  assert (Hwp : forall j srv cl kk, thr c j = TPub srv cl kk ->
     (exists r, th_step H j (thr c j) c = Some r) \/ pub_lock c = Some ORt \/ pub_lock c = Some OPublisher).
  { intros j srv cl kk Hj. rewrite Hj. cbn [th_step]. destruct (pub_lock c) as [[|i|]|] eqn:Hp; eauto.
    exfalso. apply (ib_pub c I) in Hp. assert (X : crit (thr c i) = true) by (destruct (thr c i); try discriminate; reflexivity).
    apply (ib_ctl c I) in X. assert (Y : ctl_lock c = Some j) by (apply (ib_ctl c I); now rewrite Hj). rewrite X in Y. inversion Y; subst i.
    rewrite Hj in Hp. discriminate. }
  (* the owner of controllers_lock_ can step or waits for pub_mech_stats_ *)
  assert (Hctl : forall j, ctl_lock c = Some j ->
     (exists r, th_step H j (thr c j) c = Some r) \/ pub_lock c = Some ORt \/ pub_lock c = Some OPublisher).
  { intros j Hj. pose proof Hj as Hc. apply (ib_ctl c I) in Hc.
    destruct (thr c j) as [|pr|srv pr|srv cl kk|srv cl kk|srv cl kk|srv cl kk|srv cl kk|srv cl kk|srv cl kk|srv cl kk|srv cl kk|srv kk|srv kk] eqn:Ht;
      try discriminate; try (left; cbn [th_step]; eauto; fail).
    - left. cbn [th_step]. destruct (body H cl (mg c)); eauto. destruct cl; eauto.
    - rewrite <- Ht. eapply Hwp; eauto. }
  assert (Hother : forall j, ctl_lock c = Some j -> crit (thr c k) = false -> j <> k).
  { intros j Hj Hc ->. apply (ib_ctl c I) in Hj. congruence. }
  assert (Hwait : forall j, ctl_lock c = Some j -> crit (thr c k) = false ->
     (exists j r, j <> k /\ th_step H j (thr c j) c = Some r) \/ pub_lock c = Some ORt \/ pub_lock c = Some OPublisher).
  { intros j Hj Hc. destruct (Hctl j Hj) as [(r & Hs)|X]; auto. left. exists j, r. split; auto. }
  destruct (thr c k) as [|pr|srv pr|srv cl kk|srv cl kk|srv cl kk|srv cl kk|srv cl kk|srv cl kk|srv cl kk|srv cl kk|srv cl kk|srv kk|srv kk] eqn:Ht;
    cbn [th_step] in Hb; try discriminate; try tauto.
  - destruct (srv_lock c) as [j|] eqn:Hs; [|discriminate].
    assert (Hjk : j <> k). { intros ->. apply (ib_srv c I) in Hs. rewrite Ht in Hs. discriminate. }
    pose proof Hs as Hj. apply (ib_srv c I) in Hj.
    destruct (th_step H j (thr c j) c) as [r|] eqn:Hsj; [left; eauto|].
    destruct (thr c j) as [|pr'|srv' pr'|srv cl kk|srv cl kk|srv cl kk|srv cl kk|srv cl kk|srv cl kk|srv cl kk|srv cl kk|srv cl kk|srv kk|srv kk] eqn:Htj;
      cbn [th_step] in Hsj; try discriminate.
    + destruct pr'; try discriminate; destruct (ctl_lock c) as [i|] eqn:Hc; try discriminate; eauto.
    + destruct (ctl_lock c) as [i|] eqn:Hc; try discriminate; eauto.
    + destruct (body H cl (mg c)); try discriminate. destruct cl; discriminate.
    + destruct (Hwp j srv cl kk Htj) as [(r & X)|X]; auto. rewrite Htj in X. cbn [th_step] in X.
      destruct (pub_lock c); discriminate.
  - destruct pr; try discriminate; destruct (ctl_lock c) as [i|] eqn:Hc; try discriminate; eauto.
  - destruct (ctl_lock c) as [i|] eqn:Hc; try discriminate; eauto.
  - destruct (body H cl (mg c)); try discriminate. destruct cl; discriminate.
  - destruct (Hwp k srv cl kk Ht) as [(r & X)|X]; auto. rewrite Ht in X. cbn [th_step] in X.
    destruct (pub_lock c); discriminate.
Qed.
End CProg.
