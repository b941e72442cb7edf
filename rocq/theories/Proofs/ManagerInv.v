(** The manager invariant and the exact effect of every operation (level A). *)
From Coq Require Import List String Arith Bool ZArith Lia Sorting.Permutation.
From Verif.Model Require Import Base Scheduler Controller Manager.
From Verif.Spec Require Import SchedulerSpec ManagerSpec.
From Verif.Proofs Require Import SchedulerProofs ManagerProofs.
Import ListNotations.

(* ------------------------------------------------------------------ scheduling facts *)
Lemma comes_before_split o x y :
  comes_before o x y <-> exists a b c, o = a ++ x :: b ++ y :: c.
Proof.
  split.
  - intros (i & j & Hij & Hi & Hj).
    apply nth_error_split in Hi. destruct Hi as (a & r & -> & <-).
    rewrite nth_error_app2 in Hj by lia.
    destruct (j - List.length a) as [|k] eqn:E; [lia|]. simpl in Hj.
    apply nth_error_split in Hj. destruct Hj as (b & c & -> & _). eauto.
  - intros (a & b & c & ->). exists (List.length a), (List.length a + S (List.length b)).
    split; [lia|]. split.
    + rewrite nth_error_app2 by lia. now rewrite Nat.sub_diag.
    + rewrite nth_error_app2 by lia. replace (_ + _ - _) with (S (List.length b)) by lia. simpl.
      rewrite nth_error_app2 by lia. now rewrite Nat.sub_diag.
Qed.

Lemma comes_before_filter (f : string -> bool) o x y :
  f x = true -> f y = true -> comes_before o x y -> comes_before (filter f o) x y.
Proof.
  intros Hx Hy Hc. apply comes_before_split in Hc. destruct Hc as (a & b & c & ->).
  apply comes_before_split. exists (filter f a), (filter f b), (filter f c).
  rewrite filter_app. simpl. rewrite Hx. rewrite filter_app. simpl. now rewrite Hy.
Qed.

Lemma Permutation_filter {A} (f : A -> bool) l l' :
  Permutation l l' -> Permutation (filter f l) (filter f l').
Proof.
  induction 1; simpl; auto.
  - destruct (f x); auto.
  - destruct (f x), (f y); auto. constructor.
  - eapply perm_trans; eauto.
Qed.

(** removing a controller nobody refers to keeps a schedulable set schedulable *)
Lemma admissible_remove c o n :
  admissible c o ->
  (forall s, In s c -> sp_name s <> n -> ~ In n (sp_before s) /\ ~ In n (sp_after s)) ->
  let keep := fun s => negb (String.eqb (sp_name s) n) in
  admissible (filter keep c) (filter (fun x => negb (String.eqb x n)) o).
Proof.
  intros (Hp & Ho) Hn keep. split.
  - assert (E : names (filter keep c) = filter (fun x => negb (String.eqb x n)) (names c)).
    { unfold names, keep. clear. induction c as [|s c IH]; simpl; auto.
      destruct (String.eqb (sp_name s) n); simpl; congruence. }
    rewrite E. now apply Permutation_filter.
  - intros x y Hm.
    assert (Hxy : must_precede c x y /\ x <> n /\ y <> n).
    { destruct Hm as [(s & Hs & He & Hin)|(s & Hs & He & Hin)];
        apply filter_In in Hs; destruct Hs as [Hs Hk]; unfold keep in Hk;
        destruct (String.eqb_spec (sp_name s) n) as [|Hne]; try discriminate;
        destruct (Hn s Hs Hne) as [Hb Ha].
      - split; [left; exists s; auto|]. split; [intros ->; tauto|congruence].
      - split; [right; exists s; auto|]. split; [congruence|intros ->; tauto]. }
    destruct Hxy as (Hm' & Hx & Hy). apply comes_before_filter; auto.
    + destruct (String.eqb_spec x n); auto.
    + destruct (String.eqb_spec y n); auto.
Qed.

Section Inv.
Context {W : Type} (H : hooks W).
Notation mgr := (mgr W).

Record Inv (m : mgr) : Prop := {
  inv_names : NoDup (map e_name (loaded m));
  inv_ptrs : NoDup (map e_ptr (loaded m));
  inv_lt : forall e, In e (loaded m) -> e_ptr e < next m;
  inv_sched : exists old, scheduleControllers (specs (heap m) (loaded m)) old = SchedOk (scheds m (cur m));
  inv_state : forall e, In e (loaded m) -> state_of m (e_ptr e) <> CONSTRUCTED;
  inv_deps : forall l1 e l2, loaded m = l1 ++ e :: l2 ->
     forall n p, In (n, p) (handed_out m (e_ptr e)) -> In (mkEntry n p) l1;
  inv_got : forall e n, In e (loaded m) ->
     (In n (dep_names m (e_ptr e)) <-> In n (map fst (handed_out m (e_ptr e))));
  inv_used : used m = None \/ used m = Some (cur m);
  inv_reqs : forall p, In p (start_req m ++ stop_req m) -> In p (map e_ptr (loaded m));
  inv_idle : please m = false -> start_req m = [] /\ stop_req m = [];
  inv_stats : map cs_name (mstats m) = map e_name (loaded m);
  inv_fatal : ~ In EvFatal (trace m) }.

Lemma names_specs h l : names (specs h l) = map e_name l.
Proof. unfold names, specs. rewrite map_map. reflexivity. Qed.

Lemma specs_length h l : List.length (specs h l) = List.length l.
Proof. apply map_length. Qed.

Lemma inv_valid m : Inv m -> valid_sched m.
Proof.
  intros I. destruct (inv_sched m I) as (old & E).
  pose proof (schedule_correct (specs (heap m) (loaded m)) old) as Hc.
  rewrite names_specs in Hc. specialize (Hc (inv_names m I)). rewrite E in Hc.
  destruct Hc as (Hl & Hf & _). rewrite specs_length in *. split; auto.
Qed.

Lemma order_in (m : mgr) e : In e (order m) -> In e (loaded m).
Proof.
  unfold order. intros Hin. apply in_flat_map in Hin. destruct Hin as (k & _ & Hk).
  destruct (nth_error (loaded m) k) eqn:E; [|destruct Hk]. destruct Hk as [->|[]].
  eapply nth_error_In; eauto.
Qed.

(** the execution order is a permutation of the loaded controllers *)
Lemma order_perm m : Inv m -> Permutation (order m) (loaded m).
Proof.
  intros I. pose proof (inv_valid m I) as Hv.
  destruct (inv_sched m I) as (old & E).
  pose proof (schedule_correct (specs (heap m) (loaded m)) old) as Hc.
  rewrite names_specs in Hc. specialize (Hc (inv_names m I)). rewrite E in Hc.
  destruct Hc as (Hl & Hf & o & Ho & _ & _ & (Hp & _) & _). rewrite names_specs in Hp.
  assert (Hn : map e_name (order m) = o).
  { assert (Hs : map Some (map e_name (order m)) = map Some o).
    { rewrite <- Ho. unfold order_of, order. rewrite specs_length in Hf. clear -Hf.
      induction (scheds m (cur m)) as [|k s IH]; simpl; auto.
      inversion Hf; subst. unfold specs. rewrite nth_error_map. simpl.
      destruct (nth_error (loaded m) k) eqn:En; [|apply nth_error_None in En; lia].
      simpl. f_equal. apply IH; auto. }
    clear -Hs. revert o Hs. induction (map e_name (order m)) as [|x l IH]; intros [|y o] Hs; simpl in *; try discriminate; auto.
    inversion Hs; subst. f_equal. auto. }
  apply NoDup_Permutation_bis.
  - assert (Hnd : NoDup (map e_name (order m))).
    { rewrite Hn. eapply Permutation_NoDup; [apply Permutation_sym; exact Hp|apply (inv_names m I)]. }
    now apply NoDup_map_inv in Hnd.
  - rewrite (order_length m Hv). lia.
  - intros e He. now apply order_in.
Qed.

Lemma exec_order_perm m : Inv m -> Permutation (exec_order m) (map e_ptr (loaded m)).
Proof. intros I. rewrite exec_order_order. apply Permutation_map, order_perm, I. Qed.

(** Inv only depends on the observable part *)
Lemma inv_transfer m m' :
  Inv m ->
  loaded m' = loaded m -> scheds m' (cur m') = scheds m (cur m) -> next m <= next m' ->
  (forall e, In e (loaded m) -> co_deps (heap m' (e_ptr e)) = co_deps (heap m (e_ptr e))) ->
  (forall e, In e (loaded m) -> state_of m' (e_ptr e) <> CONSTRUCTED) ->
  (used m' = None \/ used m' = Some (cur m')) ->
  (forall p, In p (start_req m' ++ stop_req m') -> In p (map e_ptr (loaded m))) ->
  (please m' = false -> start_req m' = [] /\ stop_req m' = []) ->
  map cs_name (mstats m') = map cs_name (mstats m) ->
  ~ In EvFatal (trace m') ->
  Inv m'.
Proof.
  intros I El Es En Ed Est Eu Er Ei Ems Ef.
  assert (Hspec : specs (heap m') (loaded m') = specs (heap m) (loaded m)).
  { rewrite El. unfold specs. apply map_ext_in. intros e He. unfold spec_of. now rewrite Ed. }
  constructor.
  - rewrite El. apply I.
  - rewrite El. apply I.
  - rewrite El. intros e He. pose proof (inv_lt m I e He). lia.
  - rewrite Hspec, Es. apply I.
  - rewrite El. exact Est.
  - rewrite El. intros l1 e l2 E n p. unfold handed_out. rewrite Ed.
    + apply (inv_deps m I l1 e l2 E).
    + rewrite E. apply in_or_app. right. now left.
  - rewrite El. intros e n He. unfold dep_names, handed_out. rewrite Ed by auto. now apply (inv_got m I).
  - exact Eu.
  - rewrite El. exact Er.
  - exact Ei.
  - rewrite El, Ems. apply I.
  - exact Ef.
Qed.

Lemma inv_initial m : initial m -> Inv m.
Proof.
  intros (E1&E2&E3&E4&E5&E6&E7&E8&E9&E10).
  assert (El : loaded m = []) by apply E1.
  constructor; try rewrite El; rewrite ?E5, ?E6; simpl; auto; try (now constructor); try tauto.
  - exists []. rewrite E2. reflexivity.
  - intros l1 e l2 E. destruct l1; discriminate.
  - now rewrite E8.
  - now rewrite E9.
Qed.

(* ------------------------------------------------------------------ update() *)
Definition switch_events (m : mgr) : list event :=
  if please m then map (fun p => EvCb p CbStopping) (stop_req m) ++
                   map (fun p => EvCb p CbStarting) (start_req m) ++ [EvSwitchDone] else [].

(** The complete effect of a cycle. *)
Lemma update_spec l1 l2 m :
  Inv m -> (0 < h_per_mech H)%Z -> (0 < h_per_js H)%Z ->
  exists m' pub1 pub2,
    update H l1 l2 m = Ok m' /\ Inv m' /\
    loaded m' = loaded m /\ scheds m' (cur m') = scheds m (cur m) /\ next m' = next m /\
    used m' = Some (cur m') /\ cur m' = cur m /\ please m' = false /\
    start_req m' = [] /\ stop_req m' = [] /\
    trace m' = trace m ++ [EvPropagate; EvZero] ++
       (if negb (h_halted H (world (rt_pre H m))) && prev_halted m
        then flat_map (fun p => if runningb m p then [EvCb p CbStopping; EvCb p CbStarting] else [])
                      (exec_order m) else []) ++
       flat_map (fun p => if runningb m p then [EvCb p CbUpdate] else []) (exec_order m) ++
       [EvEnforce; EvEffort] ++ pub1 ++ pub2 ++ switch_events m /\
    (pub1 = [] \/ exists ss, pub1 = [EvPubMech ss] /\ map cs_name ss = map e_name (loaded m) /\
        forall j e c, nth_error (loaded m) j = Some e -> nth_error ss j = Some c ->
          cs_name c = e_name e /\ cs_running c = runningb m (e_ptr e) /\ cs_samples c <> []) /\
    (pub2 = [] \/ pub2 = [EvPubJoint]) /\
    (forall q, state_of m' q = if please m then switched_state m q else state_of m q) /\
    (forall q, co_type (heap m' q) = co_type (heap m q) /\ co_deps (heap m' q) = co_deps (heap m q)).
Proof.
  intros I Hp1 Hp2. unfold update.
  set (m0 := rt_use (cur m) m).
  assert (Hpre : world (rt_pre H m0) = world (rt_pre H m)).
  { unfold rt_pre, now. simpl. destruct (h_now H (world m)) as [t w]. simpl.
    destruct (h_now H (h_zero H (h_propagate H w))) as [t2 w2]. reflexivity. }
  destruct (rt_pre_spec H m0) as (F1 & T1 & H1 & S1 & P1 & _ & _).
  set (m1 := rt_pre H m0) in *.
  assert (V0 : valid_sched m0) by (apply (inv_valid m I)).
  assert (V1 : valid_sched m1) by (eapply frame_valid; eauto).
  assert (U1 : used m1 = Some (cur m1)) by (eapply frame_used; [exact F1|reflexivity]).
  assert (In1 : inited m1).
  { eapply inited_frame; [exact F1|]. intros e He. apply (inv_state m I). now apply order_in. }
  destruct (rt_restart_spec H m1 V1 U1 In1) as (m2 & E2 & F2 & T2 & S2 & _ & _ & H2 & P2).
  rewrite E2. cbn [bind].
  assert (V2 : valid_sched m2) by (eapply frame_valid; eauto).
  assert (U2 : used m2 = Some (cur m2)) by (eapply frame_used; eauto).
  destruct (rt_update_all_spec H m2 V2 U2) as (m3 & E3 & F3 & T3 & S3 & P3 & _ & _ & St3 & Sm3).
  rewrite E3. cbn [bind].
  destruct (rt_post_spec H m3) as (F4 & T4 & H4 & S4 & P4 & _ & _).
  set (m4 := rt_post H m3) in *.
  assert (F04 : frame m0 m4).
  { eapply frame_trans; [exact F1|]. eapply frame_trans; [exact F2|]. eapply frame_trans; eauto. }
  assert (U4 : used m4 = Some (cur m4)) by (eapply frame_used; [exact F04|reflexivity]).
  assert (L4 : loaded m4 = loaded m).
  { unfold loaded. destruct F04 as (A&_&B&_). rewrite A, B. reflexivity. }
  assert (Sm : mstats m4 = mstats m).
  { rewrite S4, S3, S2, S1. reflexivity. }
  destruct (publish_mech_spec H l1 m4 Hp1 U4) as (m5 & pub1 & E5 & F5 & H5 & P5 & T5 & Hpub & N5 & C5).
  { rewrite L4, Sm. rewrite <- (map_length cs_name), (inv_stats m I), map_length. lia. }
  rewrite E5. cbn [bind].
  destruct (publish_js_spec H l2 m5 Hp2) as (m6 & pub2 & E6 & F6 & H6 & P6 & S6 & T6 & Hpub2).
  rewrite E6. cbn [bind].
  assert (F06 : frame m0 m6).
  { eapply frame_trans; [exact F04|]. eapply frame_trans; eauto. }
  pose proof F06 as (A1&A2&A3&A4&A5&A6&A7&A8&A9&A10).
  assert (St6 : forall q, state_of m6 q = state_of m q).
  { intros q. unfold state_of. rewrite H6, H5, H4. fold (state_of m3 q). rewrite St3.
    unfold state_of. rewrite H2, H1. reflexivity. }
  assert (Hreq : forall p, In p (start_req m6 ++ stop_req m6) -> state_of m6 p <> CONSTRUCTED).
  { rewrite A6, A7. intros p Hp. rewrite St6. apply (inv_reqs m I) in Hp.
    apply in_map_iff in Hp. destruct Hp as (e & <- & He). now apply (inv_state m I). }
  pose proof (rt_switch_spec H m6 Hreq) as (B1&B2&B3&B4&B5&B6&B7&B8&B9&B10&B11&B12&B13).
  set (m7 := rt_switch H m6) in *.
  assert (L7 : loaded m7 = loaded m).
  { unfold loaded. rewrite B1, B3, A1, A3. reflexivity. }
  assert (Hrun2 : forall p, runningb m2 p = runningb m p).
  { intros p. unfold runningb. now rewrite H2, H1. }
  assert (Hrun1 : forall p, runningb m1 p = runningb m p).
  { intros p. unfold runningb. now rewrite H1. }
  assert (Ho1 : exec_order m1 = exec_order m).
  { rewrite !exec_order_order. now rewrite (frame_order m0 m1 F1). }
  assert (Ho2 : exec_order m2 = exec_order m).
  { rewrite <- Ho1, !exec_order_order. now rewrite (frame_order m1 m2 F2). }
  assert (T4' : trace m4 = trace m ++ [EvPropagate; EvZero] ++
       (if negb (h_halted H (world (rt_pre H m))) && prev_halted m
        then flat_map (fun p => if runningb m p then [EvCb p CbStopping; EvCb p CbStarting] else [])
                      (exec_order m) else []) ++
       flat_map (fun p => if runningb m p then [EvCb p CbUpdate] else []) (exec_order m) ++
       [EvEnforce; EvEffort]).
  { rewrite T4, T3, T2, T1, Ho2, Ho1. rewrite <- !app_assoc. simpl (trace m0). f_equal. f_equal.
    f_equal; [|f_equal].
    - unfold rt_must_restart. rewrite P1. simpl (prev_halted m0). fold m0 in Hpre. fold m1. rewrite Hpre.
      destruct (negb (h_halted H (world (rt_pre H m))) && prev_halted m); auto.
      apply flat_map_ext. intros p. now rewrite Hrun1.
    - apply flat_map_ext. intros p. now rewrite Hrun2. }
  assert (T7 : trace m7 = trace m6 ++ switch_events m).
  { unfold switch_events. change (please m) with (please m0). rewrite <- A8. destruct (please m6) eqn:Epl.
    - destruct (B10 eq_refl) as (_ & _ & T & _). rewrite T, A6, A7. reflexivity.
    - rewrite (B9 eq_refl), app_nil_r. reflexivity. }
  assert (St7 : forall q, state_of m7 q = if please m then switched_state m q else state_of m q).
  { intros q. change (please m) with (please m0). rewrite <- A8. destruct (please m6) eqn:Epl.
    - destruct (B10 eq_refl) as (_ & _ & _ & St). rewrite St. unfold switched_state. rewrite A6, A7, St6. reflexivity.
    - rewrite (B9 eq_refl). apply St6. }
  assert (Rq : start_req m7 = [] /\ stop_req m7 = []).
  { destruct (please m6) eqn:Epl.
    - destruct (B10 eq_refl) as (R1 & R2 & _). auto.
    - rewrite (B9 eq_refl), A6, A7. apply (inv_idle m I). exact (eq_sym A8). }
  assert (Td : forall q, co_type (heap m7 q) = co_type (heap m q) /\ co_deps (heap m7 q) = co_deps (heap m q)).
  { intros q. destruct (B11 q) as [X1 X2]. destruct (A9 q) as [Y1 Y2]. rewrite X1, X2, Y1, Y2. split; reflexivity. }
  assert (Tfull : trace m7 = trace m ++ [EvPropagate; EvZero] ++
       (if negb (h_halted H (world (rt_pre H m))) && prev_halted m
        then flat_map (fun p => if runningb m p then [EvCb p CbStopping; EvCb p CbStarting] else [])
                      (exec_order m) else []) ++
       flat_map (fun p => if runningb m p then [EvCb p CbUpdate] else []) (exec_order m) ++
       [EvEnforce; EvEffort] ++ pub1 ++ pub2 ++ switch_events m).
  { rewrite T7, T6, T5, T4'. rewrite <- !app_assoc. reflexivity. }
  exists m7, pub1, pub2. split; [reflexivity|].
  assert (Hinv : Inv m7).
  { apply inv_transfer with m; auto.
    - rewrite B2, B3, A2, A3. reflexivity.
    - rewrite B5, A5. simpl. lia.
    - intros e _. apply Td.
    - intros e He. rewrite B13, St6. now apply (inv_state m I).
    - right. rewrite B4, B3. rewrite A4, A3. reflexivity.
    - destruct Rq as [-> ->]. intros p [].
    - rewrite B6, S6, N5, Sm. reflexivity.
    - rewrite Tfull. rewrite !in_app_iff.
      assert (Hff : forall (f : ptr -> list event) l, (forall p, ~ In EvFatal (f p)) -> ~ In EvFatal (flat_map f l)).
      { intros f l Hf Hin. apply in_flat_map in Hin. destruct Hin as (p & _ & Hp). now apply (Hf p). }
      assert (Hmm : forall (f : ptr -> callback) l, ~ In EvFatal (map (fun p => EvCb p (f p)) l)).
      { intros f l Hin. apply in_map_iff in Hin. destruct Hin as (p & Hp & _). discriminate. }
      intros [X|[X|[X|[X|[X|[X|[X|X]]]]]]].
      + now apply (inv_fatal m I).
      + simpl in X. intuition discriminate.
      + destruct (negb _ && _); [|destruct X]. revert X. apply Hff. intros p.
        destruct (runningb m p); simpl; intuition discriminate.
      + revert X. apply Hff. intros p. destruct (runningb m p); simpl; intuition discriminate.
      + simpl in X. intuition discriminate.
      + destruct Hpub as [->| ->]; simpl in X; intuition discriminate.
      + destruct Hpub2 as [->| ->]; simpl in X; intuition discriminate.
      + unfold switch_events in X. destruct (please m); [|destruct X].
        rewrite !in_app_iff in X. destruct X as [X|[X|X]].
        * now apply (Hmm (fun _ => CbStopping)) in X.
        * now apply (Hmm (fun _ => CbStarting)) in X.
        * simpl in X. intuition discriminate. }
  destruct Rq as [Rq1 Rq2].
  split; [exact Hinv|]. split; [exact L7|]. split; [rewrite B2, B3, A2, A3; reflexivity|].
  split; [rewrite B5, A5; reflexivity|]. split; [rewrite B4, B3, A4, A3; reflexivity|].
  split; [rewrite B3, A3; reflexivity|]. split; [exact B8|]. split; [exact Rq1|]. split; [exact Rq2|].
  split; [exact Tfull|]. split; [|split; [exact Hpub2|split; [exact St7|exact Td]]].
  destruct Hpub as [->| ->]; [now left|right]. exists (mstats m5). split; [reflexivity|].
  assert (Nm : map cs_name (mstats m5) = map e_name (loaded m)).
  { rewrite N5, Sm. apply (inv_stats m I). }
  split; [exact Nm|]. intros j e c Hj Hc.
  destruct (C5 ltac:(discriminate) j e c) as (R & Sa & _); [now rewrite L4|exact Hc|].
  split; [|split].
  - assert (E : nth_error (map cs_name (mstats m5)) j = nth_error (map e_name (loaded m)) j) by now rewrite Nm.
    rewrite !nth_error_map, Hj, Hc in E. simpl in E. congruence.
  - rewrite R. unfold runningb. fold (state_of m4 (e_ptr e)) (state_of m (e_ptr e)). f_equal.
    unfold state_of. rewrite H4. fold (state_of m3 (e_ptr e)). rewrite St3. unfold state_of. now rewrite H2, H1.
  - rewrite Sa, H4. apply Sm3. rewrite Ho2.
    eapply Permutation_in; [apply Permutation_sym, (exec_order_perm m I)|].
    apply in_map, nth_error_In with j. exact Hj.
Qed.
End Inv.
