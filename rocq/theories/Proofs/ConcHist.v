(** Level B: the history accepted by the C16 automaton; the events of one cycle. *)
From Coq Require Import List String Arith Bool ZArith Lia Sorting.Permutation.
From Verif.Model Require Import Base Scheduler Controller Manager ManagerConc.
From Verif.Spec Require Import SchedulerSpec ManagerSpec ConcSpec.
From Verif.Proofs Require Import SchedulerProofs ManagerProofs ManagerInv ManagerOps ConcBase ConcInv ConcTrace.
Import ListNotations.

(* ------------------------------------------------------------------ the automaton alone *)
Lemma observe_app s a b :
  observe s (a ++ b) = match observe s a with Some s' => observe s' b | None => None end.
Proof. revert s. induction a as [|e a IH]; intros s; simpl; auto. destruct (obs s e); auto. Qed.

Lemma obs_neutral s e : neutral e -> obs s e = Some s.
Proof. destruct s as [ph o]. intros [->|(p & b & ->)]; reflexivity. Qed.
Lemma observe_neutral s es : Forall neutral es -> observe s es = Some s.
Proof. induction 1; simpl; auto. now rewrite obs_neutral. Qed.

Lemma cb_eqb_eq a b : cb_eqb a b = true -> a = b.
Proof.
  destruct a as [p []| | | | | | | | | | |], b as [q []| | | | | | | | | | |]; simpl; try discriminate;
    intros E; apply Nat.eqb_eq in E; now subst.
Qed.

(** an execution reaching [Sent] ended with an event of the sending part *)
Lemma sent_last es : forall s o, observe s es = Some (Sent, o) ->
  (filter is_rt es = [] /\ fst s = Sent) \/ exists pre x, filter is_rt es = pre ++ [x] /\ is_sent x = true.
Proof.
  induction es as [|e es IH] using rev_ind; intros s o E.
  - simpl in E. inversion E; subst. auto.
  - rewrite observe_app in E. destruct (observe s es) as [s1|] eqn:E1; [|discriminate].
    simpl in E. destruct (obs s1 e) as [s2|] eqn:E2; [|discriminate]. inversion E; subst s2; clear E.
    rewrite filter_app. simpl. destruct (is_rt e) eqn:Hr.
    + right. exists (filter is_rt es), e. split; auto.
      destruct s1 as [ph o1].
      destruct e as [p []| | | | | | | | | | |]; simpl in *; try discriminate; auto;
        unfold cb_switch in E2; destruct ph, o1 as [|[|? ?]|]; try discriminate;
        repeat match type of E2 with context [if ?x then _ else _] => destruct x end; discriminate.
    + rewrite app_nil_r. destruct s1 as [ph o1].
      assert (ph = Sent).
      { destruct e as [p []| | | | | | | | | | |]; simpl in *; try discriminate; try congruence;
        destruct o1; try discriminate; congruence. }
      subst ph. eapply IH; eauto.
Qed.

(** inside a switch only its own events happen, in order *)
Lemma block_switching b : forall todo ph', observe (Switching, Owes todo) b = Some (ph', Finished) ->
  ~ In EvSwitchReturn b ->
  exists b2 r, b = b2 ++ EvSwitchDone :: r /\ filter is_rt b2 = todo /\
    observe (Between, Finished) r = Some (ph', Finished).
Proof.
  induction b as [|e b IH]; intros todo ph' E Hn; simpl in E; [discriminate|].
  assert (Hn' : ~ In EvSwitchReturn b) by (intros X; apply Hn; now right).
  assert (Hgo : forall todo', observe (Switching, Owes todo') b = Some (ph', Finished) ->
     filter is_rt [e] ++ todo' = todo ->
     exists b2 r, e :: b = b2 ++ EvSwitchDone :: r /\ filter is_rt b2 = todo /\
       observe (Between, Finished) r = Some (ph', Finished)).
  { intros todo' E' Et. destruct (IH todo' ph' E' Hn') as (b2 & r & -> & Hf & Hr).
    exists (e :: b2), r. split; auto. split; auto. rewrite <- Et, <- Hf. simpl. destruct (is_rt e); auto. }
  destruct e as [p cb| | | | | | | | | | |]; simpl in E; try discriminate.
  - destruct cb; simpl in E; try discriminate.
    + apply Hgo with todo; auto.
    + destruct todo as [|x todo]; simpl in E; [discriminate|]. destruct (cb_eqb x (EvCb p CbStarting)) eqn:Ex; [|discriminate].
      apply cb_eqb_eq in Ex. subst x. apply Hgo with todo; auto.
    + destruct todo as [|x todo]; simpl in E; [discriminate|]. destruct (cb_eqb x (EvCb p CbStopping)) eqn:Ex; [|discriminate].
      apply cb_eqb_eq in Ex. subst x. apply Hgo with todo; auto.
  - destruct todo; [|discriminate]. exists [], b. auto.
  - apply Hgo with todo; auto.
Qed.

(** an accepted request is executed by one uninterrupted block at the end of one cycle *)
Lemma block b : forall todo ph ph', observe (ph, Owes todo) b = Some (ph', Finished) ->
  ~ In EvSwitchReturn b -> ph <> Switching ->
  exists b1 b2 r, b = b1 ++ b2 ++ EvSwitchDone :: r /\ filter is_rt b2 = todo /\
    observe (ph, Owes todo) b1 = Some (Sent, Owes todo) /\ ~ In EvSwitchDone b1 /\
    observe (Between, Finished) r = Some (ph', Finished).
Proof.
  induction b as [|e b IH]; intros todo ph ph' E Hn Hs; cbn [observe] in E; [discriminate|].
  assert (Hn' : ~ In EvSwitchReturn b) by (intros X; apply Hn; now right).
  destruct (obs (ph, Owes todo) e) as [[ph1 o1]|] eqn:Eo; [|discriminate].
  assert (Hgo : ph1 <> Switching -> o1 = Owes todo -> e <> EvSwitchDone ->
    exists b1 b2 r, e :: b = b1 ++ b2 ++ EvSwitchDone :: r /\ filter is_rt b2 = todo /\
      observe (ph, Owes todo) b1 = Some (Sent, Owes todo) /\ ~ In EvSwitchDone b1 /\
      observe (Between, Finished) r = Some (ph', Finished)).
  { intros H1 -> H2. destruct (IH todo ph1 ph' E Hn' H1) as (b1 & b2 & r & -> & Hf & Ho & Hd & Hr).
    exists (e :: b1), b2, r. split; auto. split; auto. split; [cbn [observe]; now rewrite Eo|]. split; auto.
    intros [X|X]; auto. }
  assert (Hblk : forall todo', ph = Sent -> ph1 = Switching -> o1 = Owes todo' -> filter is_rt [e] ++ todo' = todo ->
    exists b1 b2 r, e :: b = b1 ++ b2 ++ EvSwitchDone :: r /\ filter is_rt b2 = todo /\
      observe (ph, Owes todo) b1 = Some (Sent, Owes todo) /\ ~ In EvSwitchDone b1 /\
      observe (Between, Finished) r = Some (ph', Finished)).
  { intros todo' -> -> -> Et. destruct (block_switching b todo' ph' E Hn') as (b2 & r & -> & Hf & Hr).
    exists [], (e :: b2), r. split; auto. split; [rewrite <- Et, <- Hf; simpl; destruct (is_rt e); auto|]. simpl. auto. }
  destruct e as [p cb| | | | | | | | | | |]; simpl in Eo; try discriminate.
  - destruct cb; simpl in Eo.
    + inversion Eo; subst. apply Hgo; auto; discriminate.
    + destruct ph; simpl in Eo; try discriminate; try (inversion Eo; subst; apply Hgo; auto; discriminate); try tauto.
      destruct todo as [|x todo]; simpl in Eo; [discriminate|]. destruct (cb_eqb x (EvCb p CbStarting)) eqn:Ex; [|discriminate].
      apply cb_eqb_eq in Ex. inversion Eo; subst. apply Hblk with todo; auto.
    + destruct ph; simpl in Eo; try discriminate; inversion Eo; subst; apply Hgo; auto; discriminate.
    + destruct ph; simpl in Eo; try discriminate; try (inversion Eo; subst; apply Hgo; auto; discriminate); try tauto.
      destruct todo as [|x todo]; simpl in Eo; [discriminate|]. destruct (cb_eqb x (EvCb p CbStopping)) eqn:Ex; [|discriminate].
      apply cb_eqb_eq in Ex. inversion Eo; subst. apply Hblk with todo; auto.
  - destruct ph; try discriminate; inversion Eo; subst; apply Hgo; auto; discriminate.
  - destruct ph; try discriminate; inversion Eo; subst; apply Hgo; auto; discriminate.
  - destruct ph; try discriminate; inversion Eo; subst; apply Hgo; auto; discriminate.
  - destruct ph; try discriminate; inversion Eo; subst; apply Hgo; auto; discriminate.
  - destruct ph; try discriminate; inversion Eo; subst; apply Hgo; auto; discriminate.
  - destruct ph; try discriminate; inversion Eo; subst; apply Hgo; auto; discriminate.
  - destruct ph, todo; try discriminate; try tauto; inversion Eo; subst. exists [], [], b. simpl. repeat (split; auto).
  - inversion Eo; subst. apply Hgo; auto; discriminate.
Qed.

(** after the block nothing more happens in that cycle *)
Lemma after_block r : forall ph', observe (Between, Finished) r = Some (ph', Finished) -> ~ In EvSwitchReturn r ->
  ~ In EvSwitchDone r /\ (filter is_rt r = [] \/ exists r', filter is_rt r = EvPropagate :: r').
Proof.
  intros ph' E Hn. split.
  - revert ph' E Hn. generalize Between. induction r as [|e r IH]; intros ph ph' E Hn; [intros []|]; cbn [observe] in E.
    destruct (obs (ph, Finished) e) as [[ph1 o1]|] eqn:Eo; [|discriminate].
    intros [X|X].
    + subst e. simpl in Eo. destruct ph; discriminate.
    + assert (o1 = Finished).
      { destruct e as [p []| | | | | | | | | | |]; simpl in Eo; try discriminate;
          try (destruct ph; simpl in Eo; try discriminate; congruence). exfalso. apply Hn. now left. }
      subst o1. revert X. eapply IH; eauto. intros X. apply Hn. now right.
  - induction r as [|e r IH]; [left; reflexivity|]. cbn [observe] in E.
    destruct (obs (Between, Finished) e) as [[ph1 o1]|] eqn:Eo; [|discriminate].
    assert (Hn' : ~ In EvSwitchReturn r) by (intros X; apply Hn; now right).
    destruct e as [p []| | | | | | | | | | |]; simpl in Eo |- *; try discriminate; eauto.
    + inversion Eo; subst. auto.
    + inversion Eo; subst. auto.
    + exfalso. apply Hn. now left.
Qed.

Section CHist.
Context {W : Type} (H : hooks W).
Notation mgr := (mgr W).
Notation config := (config W).
Hypothesis Hpm : (0 < h_per_mech H)%Z.
Hypothesis Hpj : (0 < h_per_js H)%Z.

(* ------------------------------------------------------------------ simulation of the automaton *)
Definition ph_ok (pc : rpc) (ph : phase) : Prop :=
  match pc with
  | RIdle | RGot _ | RBegin => ph = Between \/ ph = Sent
  | RRestart _ | RRestarting _ => ph = Begun
  | RUpdate _ => ph = Begun \/ ph = Updating
  | REffort => ph = Enforced
  | RPub1 | RFill _ | RPub2 | RSwitch => ph = Sent
  | RStop _ | RStart _ | REnd => ph = Sent \/ ph = Switching
  end.
Definition todo (m : mgr) (pc : rpc) : list event :=
  match pc with
  | RStop ps => stop_evs ps ++ start_evs (start_req m)
  | RStart ps => start_evs ps
  | REnd => []
  | _ => stop_evs (stop_req m) ++ start_evs (start_req m)
  end.
Definition owes_ok (c : config) (o : owes) : Prop :=
  if please (mg c) then o = Owes (todo (mg c) (rt c)) else if swh c then o = Finished else o = Nothing.
Definition sim (c : config) (s : phase * owes) : Prop := ph_ok (rt c) (fst s) /\ owes_ok c (snd s).

Lemma owes_same c c' o : owes_ok c o -> please (mg c') = please (mg c) -> swh c' = swh c ->
  (please (mg c) = true -> todo (mg c') (rt c') = todo (mg c) (rt c)) -> owes_ok c' o.
Proof.
  unfold owes_ok. intros A E1 E2 E3. rewrite E1, E2. destruct (please (mg c)); auto. now rewrite E3.
Qed.

Lemma todo_frame m m' pc : frame m m' -> todo m' pc = todo m pc.
Proof. intros (_&_&_&_&_&E6&E7&_). unfold todo. now rewrite E6, E7. Qed.

Lemma sim_rt a b c c' s : InvB c -> ~ stale_start c -> do_rt H a b c = Ok c' -> sim c s ->
  exists evs s', trace (mg c') = trace (mg c) ++ evs /\ observe s evs = Some s' /\ sim c' s'.
Proof.
  intros I Hst E (P & O). destruct s as [ph o]. simpl in P, O.
  destruct (do_rt_desc H Hpm Hpj a b c c' I Hst E) as (evs & T & D & Et & Ec & _ & _ & _).
  assert (Esw : swh c' = swh c) by (unfold swh, holder; now rewrite Et, Ec).
  exists evs. unfold rt_desc in D. pose proof (ib_rt c I) as R.
  assert (Hfr : frame (mg c) (mg c') -> todo (mg c') (rt c') = todo (mg c) (rt c) -> owes_ok c' o).
  { intros F Ht. apply owes_same with c; auto. destruct F as (_&_&_&_&_&_&_&E8&_). exact E8. }
  assert (Hsame : mg c' = mg c -> todo (mg c') (rt c') = todo (mg c) (rt c) -> owes_ok c' o).
  { intros F Ht. apply owes_same with c; auto. now rewrite F. }
  destruct (rt c) as [|x| |i|i|i| | |t| | |ps|ps|] eqn:Hr; simpl in P, R.
  - destruct D as (Em & Ep & ->). exists (ph, o). split; auto. split; auto. split; simpl; [now rewrite Ep|].
    apply Hsame; auto. now rewrite Em, Ep.
  - destruct D as (Em & Ep & ->). exists (ph, o). split; auto. split; auto. split; simpl; [now rewrite Ep|].
    apply owes_same with c; auto; rewrite Em, ?Ep, ?Hr; auto.
  - destruct D as (F & Hs & -> & Ep). exists (Begun, o). split; auto. split; [simpl; destruct P; subst ph; auto|].
    split; simpl; [destruct Ep as [[-> _]| ->]; simpl; auto|].
    apply Hfr; auto. rewrite (todo_frame _ _ _ F). destruct Ep as [[-> _]| ->]; reflexivity.
  - destruct D as (F & b0 & Hb & [(e & He & Hin & D)|(Hl & -> & Ep & Hs)]).
    + destruct (runningb (mg c) (e_ptr e)).
      * destruct D as (-> & Ep & _). subst ph. exists (Begun, o). split; auto. split; auto. split; simpl; [now rewrite Ep|].
        apply Hfr; auto. now rewrite (todo_frame _ _ _ F), Ep.
      * destruct D as (-> & Ep & _). subst ph. exists (Begun, o). split; auto. split; auto. split; simpl; [now rewrite Ep|].
        apply Hfr; auto. now rewrite (todo_frame _ _ _ F), Ep.
    + subst ph. exists (Begun, o). split; auto. split; auto. split; simpl; [rewrite Ep; simpl; auto|].
      apply Hfr; auto. now rewrite (todo_frame _ _ _ F), Ep.
  - destruct D as (F & b0 & e & Hb & He & Hin & -> & Ep & _). subst ph.
    exists (Begun, o). split; auto. split; auto. split; simpl; [now rewrite Ep|].
    apply Hfr; auto. now rewrite (todo_frame _ _ _ F), Ep.
  - destruct D as (F & Hs & b0 & Hb & [(e & He & Hin & Ep & ->)|(Hl & -> & Ep)]).
    + exists (if runningb (mg c) (e_ptr e) then Updating else ph, o). split; auto.
      split; [destruct (runningb (mg c) (e_ptr e)); destruct P; subst ph; auto|].
      split; simpl; [rewrite Ep; simpl; destruct (runningb (mg c) (e_ptr e)); auto|].
      apply Hfr; auto. now rewrite (todo_frame _ _ _ F), Ep.
    + exists (Enforced, o). split; auto. split; [destruct P; subst ph; auto|]. split; simpl; [now rewrite Ep|].
      apply Hfr; auto. now rewrite (todo_frame _ _ _ F), Ep.
  - destruct D as (F & Hs & -> & Ep). subst ph. exists (Sent, o). split; auto. split; auto. split; simpl; [now rewrite Ep|].
    apply Hfr; auto. now rewrite (todo_frame _ _ _ F), Ep.
  - destruct D as (F & Hs & -> & Ep). subst ph. exists (Sent, o). split; auto. split; auto.
    split; simpl; [destruct Ep as [->|(t & ->)]; reflexivity|].
    apply Hfr; auto. rewrite (todo_frame _ _ _ F). destruct Ep as [->|(t & ->)]; reflexivity.
  - destruct D as (F & Hs & Ep & -> & _). subst ph. exists (Sent, o). split; auto. split; auto.
    split; simpl; [now rewrite Ep|]. apply Hfr; auto. now rewrite (todo_frame _ _ _ F), Ep.
  - destruct D as (F & Hs & Ep & Ev). subst ph. exists (Sent, o). split; auto. split; [destruct Ev as [->| ->]; reflexivity|].
    split; simpl; [now rewrite Ep|]. apply Hfr; auto. now rewrite (todo_frame _ _ _ F), Ep.
  - destruct D as (Em & -> & Ep). subst ph. exists (Sent, o). split; auto. split; auto.
    split; simpl; [rewrite Ep; destruct (please (mg c)); simpl; auto|].
    apply Hsame; auto. rewrite Em, Ep. destruct (please (mg c)); reflexivity.
  - destruct R as (R0 & R1 & d & R2). unfold owes_ok in O. rewrite R1, Hr in O. simpl in O. subst o. destruct ps as [|p ps].
    + destruct D as (Em & -> & Ep). exists (ph, Owes (start_evs (start_req (mg c)))). split; auto. split; auto.
      split; simpl; [now rewrite Ep|]. unfold owes_ok. rewrite Em, R1, Ep. reflexivity.
    + destruct D as (F & _ & -> & Ep & _). exists (Switching, Owes (stop_evs ps ++ start_evs (start_req (mg c)))).
      split; auto. split; [destruct P; subst ph; simpl; rewrite Nat.eqb_refl; reflexivity|].
      split; simpl; [rewrite Ep; simpl; auto|]. destruct F as (_&_&_&_&_&E6&_&E8&_).
      unfold owes_ok. rewrite E8, R1, Ep. simpl. now rewrite E6.
  - destruct R as (R0 & R1 & d & R2). unfold owes_ok in O. rewrite R1, Hr in O. simpl in O. subst o. destruct ps as [|p ps].
    + destruct D as (Em & -> & Ep). exists (ph, Owes []). split; auto. split; auto.
      split; simpl; [now rewrite Ep|]. unfold owes_ok. rewrite Em, R1, Ep. reflexivity.
    + destruct D as (F & _ & -> & Ep & _). exists (Switching, Owes (start_evs ps)).
      split; auto. split; [destruct P; subst ph; simpl; rewrite Nat.eqb_refl; reflexivity|].
      split; simpl; [rewrite Ep; simpl; auto|]. destruct F as (_&_&_&_&_&E6&_&E8&_).
      unfold owes_ok. rewrite E8, R1, Ep. reflexivity.
  - destruct R as (R0 & R1). unfold owes_ok in O. rewrite R1, Hr in O. simpl in O. subst o.
    destruct D as (Em & -> & Ep). exists (Between, Finished). split; auto.
    split; [destruct P; subst ph; reflexivity|]. split; simpl; [rewrite Ep; simpl; auto|].
    unfold owes_ok. rewrite Em, Esw. simpl.
    assert (Hsw : swh c = true).
    { pose proof (ib_hold c I) as Ho. unfold swh. destruct (holder c); simpl in *; auto; destruct Ho; congruence. }
    now rewrite Hsw.
Qed.

Lemma sim_client c c' s : InvB c -> client c c' -> sim c s ->
  exists evs s', trace (mg c') = trace (mg c) ++ evs /\ observe s evs = Some s' /\ sim c' s'.
Proof.
  intros I Cl (P & O). destruct s as [ph o]. simpl in P, O.
  destruct (cl_evs c c' Cl) as (evs & T & Hev). exists evs. pose proof (cl_rt c c' Cl) as Er.
  destruct Hev as [(Hn & E1 & E2 & E3 & E4)|[(-> & E1 & E2 & E3 & E4)|(-> & E1 & E2 & E3 & E4 & E5 & E6)]].
  - exists (ph, o). split; auto. split; [now apply observe_neutral|]. split; simpl; [now rewrite Er|].
    apply owes_same with c; auto. intros _. unfold todo. now rewrite Er, E2, E3.
  - unfold owes_ok in O. rewrite E1, E2 in O. subst o.
    eexists. split; [exact T|]. split; [reflexivity|]. split; simpl; [now rewrite Er|].
    unfold owes_ok. rewrite E3. f_equal.
    pose proof (ib_rt c I) as R. rewrite Er. destruct (rt c); simpl in *; auto; exfalso; intuition congruence.
  - unfold owes_ok in O. rewrite E1, E2 in O. subst o.
    eexists. split; [exact T|]. split; [reflexivity|]. split; simpl; [now rewrite Er|].
    unfold owes_ok. now rewrite E3, E6.
Qed.

Theorem history_accepted m ls c :
  Inv m -> please m = false -> steady H (quiet m) ls c -> rosok c = true ->
  exists evs s, trace (mg c) = trace m ++ evs /\ observe (Between, Nothing) evs = Some s /\ sim c s.
Proof.
  intros Im Hp S. remember (quiet m) as c0 eqn:E0. induction S as [c|c ls c1 l c2 S IH E Hst]; intros Hr; subst.
  - exists [], (Between, Nothing). rewrite app_nil_r. split; auto. split; auto. split; simpl; auto.
    unfold owes_ok. simpl. now rewrite Hp.
  - pose proof (rosok_back H _ _ _ E Hr) as Hr1. destruct (IH eq_refl Hr1) as (evs & s & T & O & Sm).
    pose proof (steady_inv H m ls c1 Hpm Hpj Im Hp S Hr1) as I1.
    assert (X : exists evs' s', trace (mg c2) = trace (mg c1) ++ evs' /\ observe s evs' = Some s' /\ sim c2 s').
    { destruct (step_cases H l c1 c2 I1 Hr1 E Hr) as [(a & b & -> & E')|Cl].
      - eapply sim_rt; eauto.
      - eapply sim_client; eauto. }
    destruct X as (evs' & s' & T' & O' & Sm'). exists (evs ++ evs'), s'.
    split; [rewrite T', T; now rewrite app_assoc|]. split; auto. rewrite observe_app, O. exact O'.
Qed.
End CHist.
