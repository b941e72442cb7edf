(** Level B: the events of one cycle of the realtime thread under any interleaving. *)
From Coq Require Import List String Arith Bool ZArith Lia Sorting.Permutation.
From Verif.Model Require Import Base Scheduler Controller Manager ManagerConc.
From Verif.Spec Require Import SchedulerSpec ManagerSpec ConcSpec.
From Verif.Proofs Require Import SchedulerProofs ManagerProofs ManagerInv ManagerOps ConcBase ConcInv ConcTrace ConcHist.
Import ListNotations.

Section CCycle.
Context {W : Type} (H : hooks W).
Notation mgr := (mgr W).
Notation config := (config W).
Hypothesis Hpm : (0 < h_per_mech H)%Z.
Hypothesis Hpj : (0 < h_per_js H)%Z.

Lemma order_of_map (m : mgr) b : order_of m b = map e_ptr (order_in_list m b).
Proof.
  unfold order_of, order_in_list. induction (scheds m b) as [|k s IH]; simpl; auto.
  rewrite map_app, <- IH. destruct (nth_error (lists m b) k); reflexivity.
Qed.

Lemma order_of_nodup (m : mgr) b : GoodList m b -> NoDup (order_of m b).
Proof.
  intros G. rewrite order_of_map. eapply Permutation_NoDup; [|apply (gl_ptrs m b G)].
  apply Permutation_map. symmetry. now apply order_in_list_perm.
Qed.
Lemma order_of_lt (m : mgr) b p : GoodList m b -> In p (order_of m b) -> p < next m.
Proof.
  intros G Hin. rewrite order_of_map in Hin. apply in_map_iff in Hin. destruct Hin as (e & <- & He).
  apply (gl_lt m b G). now apply order_in_list_in.
Qed.
Lemma order_of_nth (m : mgr) b i e : nth_error (order_in_list m b) i = Some e -> nth_error (order_of m b) i = Some (e_ptr e).
Proof. intros E. rewrite order_of_map. now apply map_nth_error. Qed.
Lemma order_of_length (m : mgr) b : GoodList m b -> List.length (order_of m b) = List.length (lists m b).
Proof. intros G. rewrite order_of_map, map_length. now apply order_in_list_length. Qed.

Lemma firstn_S_nth {A} (l : list A) i x : nth_error l i = Some x -> firstn (S i) l = firstn i l ++ [x].
Proof.
  revert i. induction l as [|y l IH]; intros [|i] E; simpl in *; try discriminate.
  - inversion E; reflexivity.
  - f_equal. now apply IH.
Qed.

Lemma restart_snoc (m : mgr) ps p : restart_evs m (ps ++ [p]) =
  restart_evs m ps ++ (if runningb m p then [EvCb p CbStopping; EvCb p CbStarting] else []).
Proof. unfold restart_evs. rewrite flat_map_app. simpl. now rewrite app_nil_r. Qed.
Lemma update_snoc (m : mgr) ps p : update_evs m (ps ++ [p]) =
  update_evs m ps ++ (if runningb m p then [EvCb p CbUpdate] else []).
Proof. unfold update_evs. rewrite flat_map_app. simpl. now rewrite app_nil_r. Qed.

(** the controllers of the taken list are in the state they had when the cycle began *)
Definition agree (c : config) (b : bool) : Prop :=
  forall p, In p (order_of (snap c) b) -> runningb (mg c) p = runningb (snap c) p.
Definition restarted (s : mgr) (b again : bool) : list event := if again then restart_evs s (order_of s b) else [].
Definition sent (s : mgr) (b again : bool) (pubs : list event) : list event :=
  [EvPropagate; EvZero] ++ restarted s b again ++ update_evs s (order_of s b) ++ [EvEnforce; EvEffort] ++ pubs.
Definition taken (c : config) (b : bool) : Prop :=
  used (snap c) = Some b /\ used (mg c) = Some b /\ order_of (mg c) b = order_of (snap c) b.

(** A cycle that decided [again] satisfies [Q again snapshot]. *)
Variable Q : bool -> mgr -> Prop.
Definition full_cycle_q (m : mgr) (evs : list event) : Prop :=
  exists again pubs body tail, evs = body ++ tail /\ forallb is_pub pubs = true /\ cycle_body m again pubs body /\ Q again m /\
    (tail = [] \/ exists stops starts, tail = stop_evs stops ++ start_evs starts ++ [EvSwitchDone]).

Definition cyc_ok (c : config) : Prop :=
  let s := snap c in let m := mg c in
  match rt c with
  | RIdle | RGot _ => cyc c = [] \/ full_cycle_q s (cyc c)
  | RBegin => exists b, taken c b /\ agree c b /\ cyc c = [] /\ prev_halted m = prev_halted s
  | RRestart i => exists b, taken c b /\ agree c b /\ Q true s /\
      cyc c = [EvPropagate; EvZero] ++ restart_evs s (firstn i (order_of s b))
  | RRestarting i => exists b p, taken c b /\ Q true s /\ nth_error (order_of s b) i = Some p /\
      runningb s p = true /\ (forall q, In q (order_of s b) -> q <> p -> runningb m q = runningb s q) /\
      cyc c = [EvPropagate; EvZero] ++ restart_evs s (firstn i (order_of s b)) ++ [EvCb p CbStopping]
  | RUpdate i => exists b again, taken c b /\ agree c b /\ Q again s /\
      cyc c = [EvPropagate; EvZero] ++ restarted s b again ++ update_evs s (firstn i (order_of s b))
  | REffort => exists b again, taken c b /\ Q again s /\
      cyc c = [EvPropagate; EvZero] ++ restarted s b again ++ update_evs s (order_of s b) ++ [EvEnforce]
  | RPub1 | RFill _ | RPub2 | RSwitch => exists b again pubs, taken c b /\ Q again s /\
      forallb is_pub pubs = true /\ cyc c = sent s b again pubs
  | RStop ps => exists b again pubs d, taken c b /\ Q again s /\
      forallb is_pub pubs = true /\ stop_req m = d ++ ps /\ cyc c = sent s b again pubs ++ stop_evs d
  | RStart ps => exists b again pubs d, taken c b /\ Q again s /\
      forallb is_pub pubs = true /\ start_req m = d ++ ps /\
      cyc c = sent s b again pubs ++ stop_evs (stop_req m) ++ start_evs d
  | REnd => exists b again pubs, taken c b /\ Q again s /\
      forallb is_pub pubs = true /\ cyc c = sent s b again pubs ++ stop_evs (stop_req m) ++ start_evs (start_req m)
  end.

Lemma firstn_len {A} (l : list A) i : List.length l <= i -> firstn i l = l.
Proof. apply firstn_all2. Qed.

Lemma frame_order_of (m m' : mgr) b : frame m m' -> order_of m' b = order_of m b.
Proof. intros (E1&E2&_). unfold order_of. now rewrite E1, E2. Qed.

Lemma same_runningb (m m' : mgr) p : state_of m' p = state_of m p -> runningb m' p = runningb m p.
Proof. unfold runningb, state_of. now intros ->. Qed.

Lemma cyc_rt a b c c' : InvB c -> ~ stale_start c -> do_rt H a b c = Ok c' ->
  (rt c = RBegin -> prev_halted (mg c) = prev_halted (snap c) -> (rt c' = RRestart 0 -> Q true (snap c)) /\ (rt c' = RUpdate 0 -> Q false (snap c))) -> cyc_ok c -> cyc_ok c'.
Proof.
  intros I Hst E HQ K.
  destruct (do_rt_desc H Hpm Hpj a b c c' I Hst E) as (evs & T & D & _ & _ & _ & _ & Hsn).
  unfold rt_desc in D. unfold cyc_ok in *. 
  assert (Htk : frame (mg c) (mg c') -> snap c' = snap c -> forall x, taken c x -> taken c' x).
  { intros F Es x (A1 & A2 & A3). pose proof F as (_&_&_&E4&_). unfold taken. rewrite Es, E4, (frame_order_of _ _ _ F). auto. }
  assert (Htk' : mg c' = mg c -> snap c' = snap c -> forall x, taken c x -> taken c' x).
  { intros Em Es x. unfold taken. now rewrite Em, Es. }
  assert (Hag : same_states (mg c) (mg c') -> snap c' = snap c -> forall x, agree c x -> agree c' x).
  { intros Hs Es x A p. unfold agree in A. rewrite Es. intros Hp. rewrite <- (A p Hp). apply same_runningb. apply Hs. }
  destruct (rt c) as [|x| |i|i|i| | |t| | |ps|ps|] eqn:Hr.
  - destruct D as (Em & Ep & ->). destruct Hsn as (Es & Ec). rewrite app_nil_r in Ec. rewrite Ep, Es, Ec. exact K.
  - destruct D as (Em & Ep & ->). destruct Hsn as (Es & Ec). rewrite Ep. exists x. rewrite Ec, Es.
    split; [unfold taken; rewrite Es, Em; auto|]. split; [|auto]. intros p _. now rewrite Es.
  - destruct D as (F & Hs & -> & Ep). destruct Hsn as (Es & Ec). destruct K as (x & Tk & Ag & Kc & Kp). rewrite Kc in Ec.
    destruct (HQ eq_refl Kp) as [Q1 Q2]. destruct Ep as [[Ep Hph]|Ep]; rewrite Ep.
    + exists x. rewrite Es, Ec. split; [apply Htk; auto|]. split; [apply Hag; auto|]. split; [auto|reflexivity].
    + exists x, false. rewrite Es, Ec. split; [apply Htk; auto|]. split; [apply Hag; auto|]. split; [auto|reflexivity].
  - destruct D as (F & b0 & Hb & D). destruct Hsn as (Es & Ec). destruct K as (x & Tk & Ag & Kp & Kc). rewrite Kc in Ec.
    pose proof Tk as (T1 & T2 & T3).
    assert (b0 = x) by congruence. subst b0. pose proof (used_good c x I Hb) as G.
    destruct D as [(e & He & Hin & D)|(Hl & -> & Ep & Hs)].
    + pose proof (order_of_nth _ _ _ _ He) as Hn. rewrite T3 in Hn. pose proof (nth_error_In _ _ Hn) as Hino.
      pose proof (Ag _ Hino) as Hrun. rewrite Hrun in D.
      destruct (runningb (snap c) (e_ptr e)) eqn:Hrun'.
      * destruct D as (-> & Ep & Hput). rewrite Ep. exists x, (e_ptr e). rewrite Es, Ec.
        split; [apply Htk; auto|]. split; auto. split; auto. split; auto. split; [|now rewrite <- app_assoc].
        intros q Hq Hne. rewrite <- (Ag q Hq). apply same_runningb. rewrite Hput.
        destruct (Nat.eqb_spec q (e_ptr e)); tauto.
      * destruct D as (-> & Ep & Hs). rewrite Ep. exists x. rewrite Es, Ec. split; [apply Htk; auto|]. split; [now apply Hag|]. split; auto.
        rewrite (firstn_S_nth _ _ _ Hn), restart_snoc, Hrun', !app_nil_r. reflexivity.
    + rewrite Ep. exists x, true. rewrite Es, Ec. split; [apply Htk; auto|]. split; [now apply Hag|]. split; auto.
      simpl. rewrite !app_nil_r. rewrite firstn_len; auto. rewrite <- T3, order_of_length; auto.
  - destruct D as (F & b0 & e & Hb & He & Hin & -> & Ep & Hput). destruct Hsn as (Es & Ec).
    destruct K as (x & p & Tk & Kp & Kn & Krun & Kag & Kc). rewrite Kc in Ec. pose proof Tk as (T1 & T2 & T3).
    assert (b0 = x) by congruence. subst b0. pose proof (used_good c x I Hb) as G.
    pose proof (order_of_nth _ _ _ _ He) as Hn. rewrite T3 in Hn. assert (p = e_ptr e) by congruence. subst p.
    rewrite Ep. exists x. rewrite Es, Ec. split; [apply Htk; auto|]. split; [|split; auto].
    + intros q Hq. rewrite Es in *. destruct (Nat.eq_dec q (e_ptr e)) as [->|Hne].
      * rewrite Krun. unfold runningb. change (co_state (heap (mg c') (e_ptr e))) with (state_of (mg c') (e_ptr e)).
        rewrite Hput, Nat.eqb_refl. reflexivity.
      * rewrite <- (Kag q Hq Hne). apply same_runningb. rewrite Hput. destruct (Nat.eqb_spec q (e_ptr e)); tauto.
    + rewrite (firstn_S_nth _ _ _ Hn), restart_snoc, Krun. simpl. now rewrite <- app_assoc.
  - destruct D as (F & Hs & b0 & Hb & D). destruct Hsn as (Es & Ec).
    destruct K as (x & ag & Tk & Ag & Kp & Kc). rewrite Kc in Ec. pose proof Tk as (T1 & T2 & T3).
    assert (b0 = x) by congruence. subst b0. pose proof (used_good c x I Hb) as G.
    destruct D as [(e & He & Hin & Ep & ->)|(Hl & -> & Ep)].
    + pose proof (order_of_nth _ _ _ _ He) as Hn. rewrite T3 in Hn. pose proof (nth_error_In _ _ Hn) as Hino.
      rewrite Ep. exists x, ag. rewrite Es, Ec. split; [apply Htk; auto|]. split; [now apply Hag|]. split; auto.
      rewrite (firstn_S_nth _ _ _ Hn), update_snoc, (Ag _ Hino), <- !app_assoc. reflexivity.
    + rewrite Ep. exists x, ag. rewrite Es, Ec. split; [apply Htk; auto|]. split; auto.
      rewrite firstn_len; [now rewrite <- !app_assoc|]. rewrite <- T3, order_of_length; auto.
  - destruct D as (F & Hs & -> & Ep). destruct Hsn as (Es & Ec).
    destruct K as (x & ag & Tk & Kp & Kc). rewrite Kc in Ec.
    rewrite Ep. exists x, ag, []. rewrite Es, Ec. split; [apply Htk; auto|]. split; auto. split; auto.
    unfold sent. rewrite app_nil_r. now rewrite <- !app_assoc.
  - destruct D as (F & Hs & -> & Ep). destruct Hsn as (Es & Ec). rewrite app_nil_r in Ec.
    destruct K as (x & ag & pubs & Tk & Kp & Kf & Kc).
    destruct Ep as [->|(t & ->)]; exists x, ag, pubs; rewrite Es, Ec; (split; [apply Htk; auto|]); auto.
  - destruct D as (F & Hs & Ep & -> & _). destruct Hsn as (Es & Ec).
    destruct K as (x & ag & pubs & Tk & Kp & Kf & Kc). rewrite Kc in Ec.
    rewrite Ep. exists x, ag, (pubs ++ [EvPubMech (mstats (mg c'))]). rewrite Es, Ec. split; [apply Htk; auto|]. split; auto.
    split; [rewrite forallb_app, Kf; reflexivity|]. unfold sent. now rewrite <- !app_assoc.
  - destruct D as (F & Hs & Ep & Ev). destruct Hsn as (Es & Ec).
    destruct K as (x & ag & pubs & Tk & Kp & Kf & Kc). rewrite Kc in Ec.
    rewrite Ep. exists x, ag, (pubs ++ evs). rewrite Es, Ec. split; [apply Htk; auto|]. split; auto.
    split; [rewrite forallb_app, Kf; destruct Ev as [->| ->]; reflexivity|]. unfold sent. now rewrite <- !app_assoc.
  - destruct D as (Em & -> & Ep). destruct Hsn as (Es & Ec). rewrite app_nil_r in Ec.
    destruct K as (x & ag & pubs & Tk & Kp & Kf & Kc). rewrite Kc in Ec. rewrite Ep, Em. destruct (please (mg c)).
    + exists x, ag, pubs, []. rewrite Es, Ec. split; [apply Htk'; auto|]. split; auto. split; auto. split; auto.
      simpl. now rewrite app_nil_r.
    + right. rewrite Es, Ec. exists ag, pubs, (sent (snap c) x ag pubs), []. split; [now rewrite app_nil_r|]. split; auto.
      split; [|auto]. exists x. split; [apply Tk|]. reflexivity.
  - destruct K as (x & ag & pubs & d & Tk & Kp & Kf & Kd & Kc). destruct Hsn as (Es & Ec). rewrite Kc in Ec. destruct ps as [|p ps].
    + destruct D as (Em & -> & Ep). rewrite app_nil_r in *. subst d. rewrite Ep. exists x, ag, pubs, []. rewrite Es, Ec, Em.
      split; [apply Htk'; auto|]. split; auto. split; auto. split; auto. simpl. now rewrite app_nil_r.
    + destruct D as (F & _ & -> & Ep & _). rewrite Ep. exists x, ag, pubs, (d ++ [p]). rewrite Es, Ec.
      split; [apply Htk; auto|]. split; auto. split; auto. pose proof F as (_&_&_&_&_&_&E7&_).
      split; [rewrite E7, Kd, <- app_assoc; reflexivity|]. rewrite <- app_assoc. unfold stop_evs. now rewrite map_app.
  - destruct K as (x & ag & pubs & d & Tk & Kp & Kf & Kd & Kc). destruct Hsn as (Es & Ec). rewrite Kc in Ec. destruct ps as [|p ps].
    + destruct D as (Em & -> & Ep). rewrite app_nil_r in *. subst d. rewrite Ep. exists x, ag, pubs. rewrite Es, Ec, Em.
      split; [apply Htk'; auto|]. auto.
    + destruct D as (F & _ & -> & Ep & _). rewrite Ep. exists x, ag, pubs, (d ++ [p]). rewrite Es, Ec.
      split; [apply Htk; auto|]. split; auto. split; auto. pose proof F as (_&_&_&_&_&E6&E7&_).
      split; [rewrite E6, Kd, <- app_assoc; reflexivity|]. rewrite E7, <- !app_assoc. unfold start_evs. now rewrite map_app.
  - destruct D as (Em & -> & Ep). destruct Hsn as (Es & Ec).
    destruct K as (x & ag & pubs & Tk & Kp & Kf & Kc). rewrite Kc in Ec. rewrite Ep. right. rewrite Es, Ec.
    exists ag, pubs, (sent (snap c) x ag pubs), (stop_evs (stop_req (mg c)) ++ start_evs (start_req (mg c)) ++ [EvSwitchDone]).
    split; [now rewrite <- !app_assoc|]. split; auto. split; [|split; eauto]. exists x. split; [apply Tk|]. reflexivity.
Qed.

Lemma cyc_client c c' : InvB c -> client c c' -> cyc_ok c -> cyc_ok c'.
Proof.
  intros I Cl K. pose proof Cl as [Er Eu Epv En Eh El Es Ec Eev].
  assert (Htk : forall x, taken c x -> taken c' x).
  { intros x (A1 & A2 & A3). unfold taken. rewrite Es, Eu. split; auto. split; auto.
    destruct (El x A2) as [B1 B2]. unfold order_of in *. now rewrite B1, B2. }
  assert (Hrun : forall x p, taken c x -> In p (order_of (snap c) x) -> runningb (mg c') p = runningb (mg c) p).
  { intros x p (A1 & A2 & A3) Hp. unfold runningb. rewrite Eh; auto. rewrite <- A3 in Hp.
    apply order_of_lt with x; auto. exact (used_good c x I A2). }
  assert (Hag : forall x, taken c x -> agree c x -> agree c' x).
  { intros x Tk A p. rewrite Es. intros Hp. rewrite (Hrun x p Tk Hp). auto. }
  assert (Hreq : please (mg c) = true -> start_req (mg c') = start_req (mg c) /\ stop_req (mg c') = stop_req (mg c)).
  { intros Hp. destruct Eev as (evs & _ & [X|[X|X]]); [tauto| |]; destruct X as (_ & X & _); congruence. }
  unfold cyc_ok in *. pose proof (ib_rt c I) as R. rewrite Er, Es, Ec. destruct (rt c) as [|x| |i|i|i| | |t| | |ps|ps|]; auto.
  - destruct K as (x & Tk & Ag & K1 & K2). exists x. rewrite Epv. auto.
  - destruct K as (x & Tk & Ag & K1 & K2). exists x. auto.
  - destruct K as (x & p & Tk & Kp & Kn & Krun & Kag & Kc). exists x, p. split; auto. split; auto. split; auto. split; auto. split; auto.
    intros q Hq Hne. rewrite (Hrun x q Tk Hq). auto.
  - destruct K as (x & ag & Tk & Ag & K). exists x, ag. auto.
  - destruct K as (x & ag & Tk & K). exists x, ag. auto.
  - destruct K as (x & ag & pubs & Tk & K). exists x, ag, pubs. auto.
  - destruct K as (x & ag & pubs & Tk & K). exists x, ag, pubs. auto.
  - destruct K as (x & ag & pubs & Tk & K). exists x, ag, pubs. auto.
  - destruct K as (x & ag & pubs & Tk & K). exists x, ag, pubs. auto.
  - destruct R as (_ & R & _). destruct (Hreq R) as [Q1 Q2]. destruct K as (x & ag & pubs & d & Tk & K). exists x, ag, pubs, d. rewrite Q2. auto.
  - destruct R as (_ & R & _). destruct (Hreq R) as [Q1 Q2]. destruct K as (x & ag & pubs & d & Tk & K). exists x, ag, pubs, d. rewrite Q1, Q2. auto.
  - destruct R as (_ & R). destruct (Hreq R) as [Q1 Q2]. destruct K as (x & ag & pubs & Tk & K). exists x, ag, pubs. rewrite Q1, Q2. auto.
Qed.

End CCycle.

Section History.
Context {W : Type} (H : hooks W).
Hypothesis Hpm : (0 < h_per_mech H)%Z.
Hypothesis Hpj : (0 < h_per_js H)%Z.
Definition was_halted (again : bool) (m : mgr W) : Prop := again = true -> prev_halted m = true.
Theorem cycle_history m ls c :
  Inv m -> please m = false -> steady H (quiet m) ls c -> rosok c = true -> cyc_ok was_halted c.
Proof.
  intros Im Hp S. remember (quiet m) as c0 eqn:E0. induction S as [c|c ls c1 l c2 S IH E Hst]; intros Hr; subst.
  - unfold cyc_ok. simpl. auto.
  - pose proof (rosok_back H _ _ _ E Hr) as Hr1. specialize (IH eq_refl Hr1).
    pose proof (steady_inv H m ls c1 Hpm Hpj Im Hp S Hr1) as I1.
    destruct (step_cases H l c1 c2 I1 Hr1 E Hr) as [(a & b & -> & E')|Cl].
    + eapply cyc_rt; eauto. intros RB PH. split; [|intros _ X; discriminate]. intros RR _. rewrite <- PH.
      destruct (do_rt_desc H Hpm Hpj a b c1 c2 I1 (Hst a b eq_refl) E') as (evs & T & D & _). unfold rt_desc in D. rewrite RB in D.
      destruct D as (_ & _ & _ & [[_ D]|D]); [exact D|congruence].
    + eapply cyc_client; eauto.
Qed.
End History.
