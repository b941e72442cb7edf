(** C87: half-done modifications of the service threads are invisible. *)
From Coq Require Import List String Arith Bool ZArith Lia.
From Verif.Model Require Import Base Scheduler Controller Manager ManagerConc.
From Verif.Spec Require Import SchedulerSpec ManagerSpec ConcSpec RaceSpec.
From Verif.Proofs Require Import SchedulerProofs ManagerProofs ManagerInv ManagerOps ConcBase ConcInv ConcTrace
  ConcHist ConcCycle ConcProgress ServiceProofs Race.
From Verif.Props Require Import SchedulerProps ManagerProps ConcProps.
Import ListNotations.
Open Scope string_scope.
Open Scope list_scope.

Section Race.
Context {W : Type} (H : hooks W) (HP : positive_periods H).
Let Hpm : (0 < h_per_mech H)%Z := proj1 HP.
Let Hpj : (0 < h_per_js H)%Z := proj2 HP.
Notation mgr := (mgr W).
Notation config := (config W).

Lemma not_cur b x : b <> x -> negb x = b.
Proof. destruct b, x; cbn; congruence. Qed.

(** what is needed of the change [G] in configuration [c] *)
Definition fits (G : mgr -> mgr) (c : config) : Prop :=
  transparent G /\ lists (G (mg c)) (cur (mg c)) = lists (mg c) (cur (mg c)) /\
  (reads_list (rt c) = true -> list_kept G (mg c)) /\ (forall t, rt c = RFill t -> message_kept G) /\
  (please (mg c) = true \/ (exists ps, rt c = RStop ps) \/ rt c = REnd -> requests_kept G).

Lemma half_done_change k (c : config) m2 : live H c -> writing (thr c k) -> half_done (thr c k) (mg c) m2 ->
  exists G, m2 = G (mg c) /\ fits G c /\ forall m, cur m = cur (mg c) -> half_done (thr c k) m (G m).
Proof.
  intros L Wr HD. pose proof (live_inv H Hpm Hpj c L) as I. destruct (C21_no_data_race H HP c L) as (NL & NR & NM).
  assert (CR : crit (thr c k) = true) by (destruct (thr c k); try destruct Wr; reflexivity).
  assert (HO : hold_ok (mg c) (thr c k)) by (rewrite <- (holder_eq c k I CR); apply I).
  assert (PL : please (mg c) = false) by (destruct (thr c k); try destruct Wr; exact (proj1 HO)).
  assert (NQ : ~ (please (mg c) = true \/ (exists ps, rt c = RStop ps) \/ rt c = REnd)).
  { pose proof (ib_rt c I) as R. intros [X|[(ps & X)|X]]; [congruence| |]; rewrite X in R; cbn in R; destruct R as (_ & R); [destruct R as (R & _)|]; congruence. }
  assert (LISTS : forall l s, writes (thr c k) (mg c) = Some (negb (cur (mg c))) ->
    fits (fun m : mgr => set_lists (upd (lists m) (negb (cur (mg c))) l) (set_scheds (upd (scheds m) (negb (cur (mg c))) s) m)) c).
  { intros l s WR. split; [constructor; reflexivity|]. split; [cbn; apply negb_upd|]. split; [|split].
    - intros RL u U. assert (N : u <> negb (cur (mg c))).
      { intros ->. apply NL. exists k, (negb (cur (mg c))). split; [exact WR|]. unfold rt_uses. destruct (rt c); try discriminate; exact U. }
      assert (EU : u = cur (mg c)) by (destruct u, (cur (mg c)); cbn in N; congruence). subst u. cbn. split; apply negb_upd.
    - intros t X. split; reflexivity.
    - intros X. contradiction. }
  destruct (thr c k) as [|pr|srv pr|srv cl kk|srv cl kk|srv cl kk|srv cl kk|srv cl kk|srv cl kk|srv cl kk|srv cl kk|srv cl kk|srv kk|srv kk] eqn:T; try destruct Wr.
  - destruct cl as [env n|n|a b s]; cbn in HD.
    + destruct HD as (l & s & ->). eexists. split; [|split; [exact (LISTS l s eq_refl)|]]; [reflexivity|]. intros m E. exists l, s. rewrite E. reflexivity.
    + destruct HD as (l & s & ->). eexists. split; [|split; [exact (LISTS l s eq_refl)|]]; [reflexivity|]. intros m E. exists l, s. rewrite E. reflexivity.
    + destruct HD as (ss & ts & ->). exists (fun m => set_start_req ss (set_stop_req ts m)). split; [reflexivity|]. split; [|intros m _; exists ss, ts; reflexivity].
      split; [constructor; reflexivity|]. split; [reflexivity|]. split; [intros _ u _; split; reflexivity|]. split; [intros t _; split; reflexivity|]. intros X. contradiction.
  - cbn in HD. destruct HD as (ms & ->). exists (fun m => set_mstats ms m). split; [reflexivity|]. split; [|intros m _; exists ms; reflexivity].
    split; [constructor; reflexivity|]. split; [reflexivity|]. split; [intros _ u _; split; reflexivity|]. split; [|intros X; contradiction].
    intros t X. exfalso. apply NM. split; [eauto|]. exists k, srv, cl, kk. exact T.
  - cbn in HD. destruct HD as (l & s & ->). eexists. split; [|split; [exact (LISTS l s eq_refl)|]]; [reflexivity|]. intros m E. exists l, s. rewrite E. reflexivity.
Qed.

(** the answer of a step with the modification complete and half-done *)
Definition alike (k : nat) (r r2 : option (res config)) : Prop :=
  match r, r2 with
  | None, None | Some UB, Some UB | Some Abort, Some Abort | Some Hang, Some Hang => True
  | Some (Ok c'), Some (Ok c2') => looks_like k c' c2'
  | _, _ => False
  end.

(** ** C87 *)
(** While thread [k] is changing the spare list, the switch request, the statistics message or the old list, and whatever it has
    written there so far: every step any other thread can take does the same as if nothing had been written yet, and no
    step becomes possible or impossible. *)
Theorem C87_half_done_is_invisible : forall k (c c2 : config) l,
  live H c -> writing (thr c k) -> looks_like k c c2 -> l <> LTh k -> alike k (bstep H l c) (bstep H l c2).
Proof.
  intros k c c2 l L Wr LL NK. pose proof (live_inv H Hpm Hpj c L) as I.
  destruct (half_done_change k c (mg c2) L Wr (ll_mg k c c2 LL)) as (G & EG & (TP & TL & KL & KM & KR) & HD).
  assert (CR : crit (thr c k) = true) by (destruct (thr c k); try destruct Wr; reflexivity).
  assert (CL : ctl_lock c = Some k) by (apply (ib_ctl c I), CR).
  assert (OTHER : forall j, j <> k -> crit (thr c j) = false).
  { intros j NE. destruct (crit (thr c j)) eqn:E; [|reflexivity]. apply (ib_ctl c I) in E. congruence. }
  assert (WT : thr c k <> TIdle) by (intros E; rewrite E in Wr; destruct Wr).
  destruct c2 as [m2 r2 t2 s2 cl2 p2 o2 sn2 cy2]. destruct LL as [_ LR LT LS LC LP LO LY]. cbn [mg rt thr srv_lock ctl_lock pub_lock rosok snap cyc] in *. subst m2 r2 t2 s2 cl2 p2 o2 cy2.
  destruct l as [a b|j|j srv pr| | | |f]; cbn [bstep mg rt thr srv_lock ctl_lock pub_lock rosok snap cyc].
  - unfold do_rt. cbn [mg rt thr srv_lock ctl_lock pub_lock rosok snap cyc].
    rewrite (rt_blind H G TP _ a b (rt c) (mg c) KL KM KR).
    destruct (rt_step H _ a b (rt c) (mg c)) as [[m' pc']| | |] eqn:S; cbn [on_ok bind alike]; auto. unfold rt_after. cbn [fst snd bind alike].
    assert (CU : cur m' = cur (mg c)) by (eapply rt_step_lists; exact S).
    assert (NE : new_events (G (mg c)) (G m') = new_events (mg c) m') by (unfold new_events; rewrite !(tp_trace G TP); reflexivity).
    constructor; cbn [mg rt thr srv_lock ctl_lock pub_lock rosok snap cyc]; try reflexivity.
    + apply HD. exact CU.
    + destruct (rt c); rewrite ?NE; reflexivity.
  - assert (NE : j <> k) by congruence. pose proof (OTHER j NE) as OJ. pose proof (set_thr_other (thr c)) as STO.
    assert (KEEP : forall t, set_thr (thr c) j t k = thr c k) by (intros t; apply set_thr_other; congruence).
    destruct (thr c j) as [|pr|srv pr|srv cl kk|srv cl kk|srv cl kk|srv cl kk|srv cl kk|srv cl kk|srv cl kk|srv cl kk|srv cl kk|srv kk|srv kk] eqn:T; try discriminate OJ; cbn [th_step mg rt thr srv_lock ctl_lock pub_lock rosok snap cyc alike].
    + exact Logic.I.
    + destruct (srv_lock c); [exact Logic.I|]. constructor; cbn; try reflexivity. rewrite KEEP. apply HD. reflexivity.
    + destruct pr as [| |cl kk|kk|kk|n kk|p kk|pr'|r pr']; cbn [alike].
      * destruct srv; constructor; cbn; try reflexivity; rewrite KEEP; apply HD; reflexivity.
      * exact Logic.I.
      * constructor; cbn; try reflexivity. rewrite KEEP. apply HD. reflexivity.
      * rewrite CL. exact Logic.I.
      * rewrite CL. exact Logic.I.
      * assert (GL : getControllerByName (G (mg c)) n = getControllerByName (mg c) n) by (unfold getControllerByName; rewrite (tp_cur G TP), TL; reflexivity).
        rewrite GL. constructor; cbn; try reflexivity. rewrite KEEP. apply HD. reflexivity.
      * rewrite (g_state G TP). constructor; cbn; try reflexivity. rewrite KEEP. apply HD. reflexivity.
      * rewrite (g_log G TP). constructor; cbn; try reflexivity. rewrite KEEP. apply HD. reflexivity.
      * constructor; cbn; try reflexivity. rewrite KEEP. apply HD. reflexivity.
    + rewrite CL. exact Logic.I.
  - destruct (Nat.eq_dec j k) as [->|NE]; [destruct (thr c k); try exact Logic.I; destruct (WT eq_refl)|].
    destruct (thr c j) eqn:T; try exact Logic.I. constructor; cbn; try reflexivity. rewrite set_thr_other by congruence. apply HD. reflexivity.
  - cbn. destruct (pub_lock c); cbn; [exact Logic.I|]. constructor; cbn; try reflexivity. apply HD. reflexivity.
  - cbn. destruct (pub_lock c) as [[|x|]|]; cbn; try exact Logic.I. constructor; cbn; try reflexivity. apply HD. reflexivity.
  - constructor; cbn; try reflexivity. apply HD. reflexivity.
  - cbn. rewrite (g_world G TP). constructor; cbn; try reflexivity. apply HD. reflexivity.
Qed.

Lemma other_keeps k l (c c' : config) : bstep H l c = Some (Ok c') -> l <> LTh k -> writing (thr c k) -> thr c' k = thr c k.
Proof.
  intros E NK Wr. destruct l as [a b|j|j srv pr| | | |f]; cbn [bstep] in E.
  - injection E as E. unfold do_rt in E. destruct (rt_step H _ a b (rt c) (mg c)) as [[m' pc']| | |]; cbn [bind] in E; try discriminate. injection E as <-. reflexivity.
  - assert (NE : k <> j) by congruence. exact (th_other H j c c' k E NE).
  - assert (NE : k <> j) by (intros ->; destruct (thr c j); try discriminate E; destruct Wr). destruct (thr c j); try discriminate. injection E as <-. cbn. apply set_thr_other. exact NE.
  - destruct (pub_lock c); try discriminate. injection E as <-. reflexivity.
  - destruct (pub_lock c) as [[| |]|]; try discriminate. injection E as <-. reflexivity.
  - injection E as <-. reflexivity.
  - injection E as <-. reflexivity.
Qed.

(** And so for any stretch of the execution in which thread [k] takes no step: the others end up in the same place, having
    caused the same events and left the same world and the same controllers. *)
Theorem C87_whole_stretches : forall k (c : config) ls c', live H c -> writing (thr c k) -> steady H c ls c' -> rosok c' = true ->
  ~ In (LTh k) ls -> forall c2, looks_like k c c2 ->
  exists c2', steps H c2 ls c2' /\ looks_like k c' c2' /\ live H c' /\ thr c' k = thr c k /\
    trace (mg c2') = trace (mg c') /\ world (mg c2') = world (mg c') /\ heap (mg c2') = heap (mg c').
Proof.
  intros k c ls c' L Wr S. induction S as [c|c ls c1 l c2 S IH E NS]; intros RO NI d LL.
  - exists d. split; [constructor|]. split; [exact LL|]. split; [exact L|]. split; [reflexivity|].
    destruct (half_done_change k c (mg d) L Wr (ll_mg k c d LL)) as (G & EG & (TP & _) & _). rewrite EG, (tp_trace G TP), (tp_world G TP), (tp_heap G TP). auto.
  - assert (RO1 : rosok c1 = true) by (eapply rosok_back; eauto).
    destruct (IH L Wr RO1 (fun X => NI (in_or_app _ _ _ (or_introl X))) d LL) as (d1 & S1 & LL1 & L1 & T1 & _).
    assert (NK : l <> LTh k) by (intros ->; apply NI, in_or_app; right; left; reflexivity).
    assert (Wr1 : writing (thr c1 k)) by (rewrite T1; exact Wr).
    pose proof (C87_half_done_is_invisible k c1 d1 l L1 Wr1 LL1 NK) as A. rewrite E in A.
    destruct (bstep H l d1) as [[d2| | |]|] eqn:E2; cbn [alike] in A; try contradiction.
    assert (L2 : live H c2) by (eapply live_step; eauto).
    assert (T2 : thr c2 k = thr c1 k) by (eapply other_keeps; eauto).
    exists d2. split; [eapply steps_snoc; eauto|]. split; [exact A|]. split; [exact L2|]. split; [congruence|].
    assert (Wr2 : writing (thr c2 k)) by (rewrite T2; exact Wr1).
    destruct (half_done_change k c2 (mg d2) L2 Wr2 (ll_mg k c2 d2 A)) as (G & EG & (TP & _) & _). rewrite EG, (tp_trace G TP), (tp_world G TP), (tp_heap G TP). auto.
Qed.

(** Which containers a step of a client thread changes: the spare list and its schedule only where [writes] says so, the
    switch request only while collecting it, the statistics message only while resizing it; never the fields the control
    loop keeps for itself, never a controller that existed before. *)
Theorem C87_client_writes : forall k (c c' : config), bstep H (LTh k) c = Some (Ok c') ->
  (forall b, lists (mg c') b = lists (mg c) b /\ scheds (mg c') b = scheds (mg c) b \/ writes (thr c k) (mg c) = Some b) /\
  ((start_req (mg c') = start_req (mg c) /\ stop_req (mg c') = stop_req (mg c) /\ please (mg c') = please (mg c)) \/
   exists srv a b s kk, thr c k = TBody srv (CSwitch a b s) kk) /\
  ((mstats (mg c') = mstats (mg c) /\ cur (mg c') = cur (mg c)) \/ exists srv cl kk, thr c k = TFlip srv cl kk) /\
  used (mg c') = used (mg c) /\ prev_halted (mg c') = prev_halted (mg c) /\
  forall p, p < next (mg c) -> heap (mg c') p = heap (mg c) p.
Proof.
  intros k c c' E. cbn [bstep] in E.
  assert (BF : forall (m m' : mgr) b, bframe m m' -> lists m' b = lists m b /\ scheds m' b = scheds m b \/ Some (negb (cur m)) = Some b).
  { intros m m' b F. destruct (Bool.bool_dec b (cur m)) as [->|N]; [left; split; apply F|right; f_equal; apply not_cur; exact N]. }
  destruct (thr c k) as [|pr|srv pr|srv cl kk|srv cl kk|srv cl kk|srv cl kk|srv cl kk|srv cl kk|srv cl kk|srv cl kk|srv cl kk|srv kk|srv kk] eqn:T; cbn [th_step] in E.
  7: { (* TBody *)
    destruct cl as [env n|n|a b s]; cbn [body] in E.
    - pose proof (load_body_frame H env n (mg c)) as F. destruct (load_body H env n (mg c)) as [m'|m'|m'|]; try discriminate E; injection E as <-; cbn [ret with_thr with_ctl with_mg mg];
        (split; [intros b; cbn [writes]; unfold free_list; apply BF; exact F|]; split; [left; repeat split; apply F|]; split; [left; split; apply F|]; split; [apply F|]; split; [apply F|]; apply F).
    - pose proof (unload_body_frame n (mg c)) as F. destruct (unload_body n (mg c)) as [m'|m'|m'|]; try discriminate E; injection E as <-; cbn [ret with_thr with_ctl with_mg mg]; destruct F as (F & _);
        (split; [intros b; cbn [writes]; unfold free_list; apply BF; exact F|]; split; [left; repeat split; apply F|]; split; [left; split; apply F|]; split; [apply F|]; split; [apply F|]; apply F).
    - unfold switch_body in E. destruct (collect (mg c) _ b) as [ps|]; [destruct (collect _ _ a) as [qs|]|]; injection E as <-; cbn;
        (split; [intros x; left; auto|]; split; [right; eauto 10|]; split; [left; auto|]; auto). }
  6: { injection E as <-. destruct (negb (rosok c)); cbn; (split; [intros x; left; auto|]; split; [left; auto|]; split; [left; auto|]; auto). }
  7: { injection E as <-. cbn. split; [intros x; left; auto|]. split; [left; auto|]. split; [right; eauto|]. auto. }
  9: { injection E as <-. cbn. split; [|split; [left; auto|]; split; [left; auto|]; auto].
       intros b. destruct (Bool.bool_dec b (cur (mg c))) as [->|N]; [left; split; [apply negb_upd|reflexivity]|right; cbn; f_equal; apply not_cur; exact N]. }
  all: repeat match goal with
       | E : (match ?x with _ => _ end) = Some _ |- _ => destruct x eqn:?; try discriminate E
       end; try discriminate E; injection E as <-;
       repeat match goal with |- context [if ?x then _ else _] => destruct x end; cbn;
       (split; [intros x; left; auto|]; split; [left; auto|]; split; [left; auto|]; auto).
Qed.

(** Which containers a step of the control loop changes: the statistics message only while it holds its lock and fills it, the
    switch request only when finishing it; never a list, a schedule, the current index, a controller's type or dependencies. *)
Theorem C87_realtime_writes : forall a b (c c' : config), bstep H (LRt a b) c = Some (Ok c') ->
  same_catalogue (mg c) (mg c') /\
  (mstats (mg c') = mstats (mg c) \/ exists t, rt c = RFill t) /\
  (start_req (mg c') = start_req (mg c) /\ stop_req (mg c') = stop_req (mg c) /\ please (mg c') = please (mg c) \/ rt c = REnd).
Proof.
  intros a b c c' E. cbn [bstep] in E. injection E as E. unfold do_rt in E.
  destruct (rt_step H _ a b (rt c) (mg c)) as [[m' pc']| | |] eqn:S; cbn [bind] in E; try discriminate. injection E as <-. cbn [mg].
  destruct (rt_step_lists H _ _ _ _ _ _ _ S) as (K1 & K2 & K3 & K4).
  assert (SC : (forall p, co_type (heap m' p) = co_type (heap (mg c) p)) -> (forall p, co_deps (heap m' p) = co_deps (heap (mg c) p)) -> same_catalogue (mg c) m')
    by (intros A B; constructor; auto).
  assert (D : (exists t, rt c = RFill t) \/ rt c = REnd \/ ((forall t, rt c <> RFill t) /\ rt c <> REnd))
    by (destruct (rt c); eauto; right; right; split; intros; discriminate).
  destruct D as [(t & R)|[R|(R1 & R2)]].
  - rewrite R in S. cbn [rt_step] in S. destruct (rt_fill_mech H t (mg c)) as [m1| | |] eqn:F; cbn [bind] in S; try discriminate. injection S as <- <-.
    destruct (fill_leaves H t (mg c) m1 F) as (EH & E1 & E2 & E3). split; [apply SC; intros p; rewrite EH; reflexivity|]. split; [right; eauto|]. left. auto.
  - rewrite R in S. cbn [rt_step] in S. injection S as <- <-. split; [apply SC; reflexivity|]. split; [left; reflexivity|right; exact R].
  - pose proof (rt_leaves H _ a b (rt c) (mg c) m' pc' S R1 R2) as F. split; [apply SC; apply F|]. split; left; [apply F|]. repeat split; apply F.
Qed.

(** While thread [k] holds controllers_lock_, nobody else changes what its load, unload or switch works from. *)
Theorem C87_inputs_stable : forall k (c c' : config) l, live H c -> in_call (thr c k) = true -> l <> LTh k ->
  bstep H l c = Some (Ok c') -> same_catalogue (mg c) (mg c').
Proof.
  intros k c c' l L IC NK E. pose proof (live_inv H Hpm Hpj c L) as I.
  assert (REFL : same_catalogue (mg c) (mg c)) by (constructor; reflexivity).
  destruct l as [a b|j|j srv pr| | | |f].
  - exact (proj1 (C87_realtime_writes a b c c' E)).
  - assert (NE : j <> k) by congruence.
    assert (OJ : in_call (thr c j) = false) by (destruct (in_call (thr c j)) eqn:X; [destruct NE; exact (C29_mutual_exclusion H HP c j k L X IC)|reflexivity]).
    cbn [bstep] in E. destruct (thr c j) as [|pr|srv pr|srv cl kk|srv cl kk|srv cl kk|srv cl kk|srv cl kk|srv cl kk|srv cl kk|srv cl kk|srv cl kk|srv kk|srv kk] eqn:T; try discriminate OJ; cbn [th_step] in E;
    repeat match goal with
       | E : (match ?x with _ => _ end) = Some _ |- _ => destruct x eqn:?; try discriminate E
       end; try discriminate E; injection E as <-;
       repeat match goal with |- context [if ?x then _ else _] => destruct x end; cbn; constructor; reflexivity.
  - cbn [bstep] in E. destruct (thr c j); try discriminate. injection E as <-. exact REFL.
  - cbn [bstep] in E. destruct (pub_lock c); try discriminate. injection E as <-. exact REFL.
  - cbn [bstep] in E. destruct (pub_lock c) as [[| |]|]; try discriminate. injection E as <-. exact REFL.
  - cbn [bstep] in E. injection E as <-. exact REFL.
  - cbn [bstep] in E. injection E as <-. constructor; reflexivity.
Qed.

(** And that is all the outcome depends on, apart from whether the controller to be unloaded is running when that is read: so
    it does not matter at which moment between taking the lock and publishing the result each piece of it was read. *)
Theorem C87_outcome_from_inputs : forall cl (m m' : mgr), same_catalogue m m' -> start_req m' = start_req m -> stop_req m' = stop_req m ->
  (forall n, cl = CUnload n -> forall e, In e (loaded m) -> e_name e = n -> runningb m' (e_ptr e) = runningb m (e_ptr e)) ->
  same_outcome (body H cl m') (body H cl m).
Proof.
  intros [env n|n|a b s] m m' SC E1 E2 RU; cbn [body].
  - exact (load_same H env n m m' SC E1 E2).
  - exact (unload_same n m m' SC E1 E2 (RU n eq_refl)).
  - exact (switch_same a b s m m' SC E1 E2).
Qed.
End Race.

(** Non-vacuity: thread 0 is unloading a controller, thread 1 waits, the control loop is in the middle of its updates, and the
    spare list is full of rubbish. *)
Definition rubbish_run : list (label exW) := rts 5 ++ [LStart 0 false (unload_service "c"); LStart 1 false (load_service exEnv "d")] ++ ths 0 3 ++ ths 1 1.
Definition rubbish (c : config exW) : config exW :=
  with_mg (set_lists (upd (lists (mg c)) (negb (cur (mg c))) [mkEntry "rubbish" 99; mkEntry "b" 1])
    (set_scheds (upd (scheds (mg c)) (negb (cur (mg c))) [7; 7; 7]) (mg c))) c.
Lemma rubbish_like (c : config exW) : match thr c 0 with TBody _ (CUnload _) _ => true | _ => false end = true -> looks_like 0 c (rubbish c).
Proof.
  intros T. constructor; try reflexivity. unfold rubbish. cbn [with_mg mg]. destruct (thr c 0) as [|pr|srv pr|srv cl kk|srv cl kk|srv cl kk|srv cl kk|srv cl kk|srv cl kk|srv cl kk|srv cl kk|srv cl kk|srv kk|srv kk]; try discriminate T.
  destruct cl; try discriminate T. cbn. eexists. eexists. reflexivity.
Qed.
Lemma rubbish_differs (c : config exW) : List.length (lists (mg c) (negb (cur (mg c)))) <> 2 -> lists (mg (rubbish c)) <> lists (mg c).
Proof. intros N E. apply N. rewrite <- E. unfold rubbish. cbn. unfold upd. rewrite Bool.eqb_reflx. reflexivity. Qed.
Example C87_ex : let c := reached exH rubbish_run ex1 in
  live exH c /\ writing (thr c 0) /\ looks_like 0 c (rubbish c) /\ lists (mg (rubbish c)) <> lists (mg c) /\ bstep exH (LTh 1) c = None /\
  match runs exH (rts 20) c, runs exH (rts 20) (rubbish c) with
  | Some c', Some d' => trace (mg d') = trace (mg c') /\ List.length (trace (mg c)) + 10 < List.length (trace (mg c'))
  | _, _ => False end.
Proof.
  cbv zeta. split; [ex_live|]. split; [vm_compute; exact I|]. split; [|split; [|split]].
  - apply rubbish_like. vm_compute. reflexivity.
  - apply rubbish_differs. vm_compute. discriminate.
  - vm_compute. reflexivity.
  - vm_compute. split; [reflexivity|lia].
Qed.
