(** Level B: serialisation of the calls. *)
From Coq Require Import List String Arith Bool ZArith Lia Sorting.Permutation.
From Verif.Model Require Import Base Scheduler Controller Manager ManagerConc.
From Verif.Spec Require Import SchedulerSpec ManagerSpec ConcSpec LinSpec.
From Verif.Proofs Require Import SchedulerProofs ManagerProofs ManagerInv ManagerOps ConcBase ConcInv ConcTrace.
Import ListNotations.

Section CLin.
Context {W : Type} (H : hooks W).
Notation mgr := (mgr W).
Notation config := (config W).
Hypothesis Hpm : (0 < h_per_mech H)%Z.
Hypothesis Hpj : (0 < h_per_js H)%Z.

Lemma frame_catb (m m' : mgr) b : frame m m' -> catb m' b = catb m b.
Proof.
  intros (E1&E2&_&_&_&_&_&_&E9&_). unfold catb. rewrite E1, E2. f_equal. apply map_ext. intros e.
  destruct (E9 (e_ptr e)) as [-> ->]. reflexivity.
Qed.
Lemma frame_cur (m m' : mgr) : frame m m' -> cur m' = cur m.
Proof. intros (_&_&E&_). exact E. Qed.

Lemma rt_cat a b c c' : InvB c -> ~ stale_start c -> do_rt H a b c = Ok c' ->
  cur (mg c') = cur (mg c) /\ (forall x, catb (mg c') x = catb (mg c) x) /\ thr c' = thr c.
Proof.
  intros I Hst E. destruct (do_rt_desc H Hpm Hpj a b c c' I Hst E) as (evs & _ & D & Et & _).
  unfold rt_desc in D.
  assert (Hf : frame (mg c) (mg c') -> cur (mg c') = cur (mg c) /\ (forall x, catb (mg c') x = catb (mg c) x) /\ thr c' = thr c).
  { intros F. split; [now apply frame_cur|]. split; [intros x; now apply frame_catb|exact Et]. }
  assert (Hs : mg c' = mg c -> cur (mg c') = cur (mg c) /\ (forall x, catb (mg c') x = catb (mg c) x) /\ thr c' = thr c).
  { intros ->. auto. }
  destruct (rt c) as [|x| |i|i|i| | |t| | |ps|ps|]; try (apply Hs; tauto); try (apply Hf; tauto).
  - destruct D as (-> & _). auto.
  - destruct ps; [apply Hs|apply Hf]; tauto.
  - destruct ps; [apply Hs|apply Hf]; tauto.
  - destruct D as (-> & _). auto.
Qed.

(** a thread that does not hold controllers_lock_ *)
Lemma outsider_cat k c c' : crit (thr c k) = false -> th_step H k (thr c k) c = Some (Ok c') ->
  cur (mg c') = cur (mg c) /\ (forall x, catb (mg c') x = catb (mg c) x) /\
  (forall j, j <> k -> thr c' j = thr c j).
Proof.
  intros Hc E.
  destruct (thr c k) as [|pr|srv pr|srv cl kk|srv cl kk|srv cl kk|srv cl kk|srv cl kk|srv cl kk|srv cl kk|srv cl kk|srv cl kk|srv kk|srv kk];
    try discriminate; cbn [th_step] in E.
  - destruct (srv_lock c); inversion E; subst. simpl. repeat (split; auto). intros j Hj. now apply set_thr_other.
  - destruct pr; try discriminate; try (destruct (ctl_lock c); try discriminate); inversion E; subst; simpl;
      (split; [destruct srv; reflexivity|]; split; [destruct srv; reflexivity|]; intros j Hj; destruct srv; now apply set_thr_other).
  - destruct (ctl_lock c); inversion E; subst. simpl. repeat (split; auto). intros j Hj. now apply set_thr_other.
Qed.

Definition pst (t : tstate) : pstate :=
  match t with
  | TIdle | TWant _ | TProg _ _ => Out
  | TLock _ c _ | TWait1 _ c _ | TWait1b _ c _ | TBody _ c _ | TPub _ c _ | TFlip _ c _ => Called c
  | TWait2 _ _ _ | TWait2b _ _ _ | TClear _ _ _ | TSw _ _ | TSwb _ _ => Took (Returned true)
  end.
Definition prepared (t : tstate) : option call :=
  match t with TPub _ c _ | TFlip _ c _ => Some c | _ => None end.

Record LInv (K0 : cat) (h : list hevent) (c : config) : Prop := {
  li_proto : forall k, protocol k h (pst (thr c k));
  li_legal : legal H K0 (effects h) (catalogue (mg c));
  li_prep : forall k cl, prepared (thr c k) = Some cl ->
    exists m, catalogue m = catalogue (mg c) /\ alone H cl m (Returned true) (catb (mg c) (negb (cur (mg c)))) }.

Lemma effects_app a b : effects (a ++ b) = effects a ++ effects b.
Proof. unfold effects. apply flat_map_app. Qed.

Lemma proto_other k h es s : protocol k h s ->
  (forall e, In e es -> match e with HInv j _ | HLin j _ _ | HRes j _ => j <> k end) -> protocol k (h ++ es) s.
Proof.
  revert h. induction es as [|e es IH]; intros h P Ho; [now rewrite app_nil_r|].
  replace (h ++ e :: es) with ((h ++ [e]) ++ es) by (rewrite <- app_assoc; reflexivity).
  apply IH; [|intros x Hx; apply Ho; now right]. apply pr_other; auto. apply Ho. now left.
Qed.

Lemma hevs_mine k c e : In e (hevs H (LTh k) c) -> match e with HInv j _ | HLin j _ _ | HRes j _ => j = k end.
Proof.
  unfold hevs. destruct (thr c k); try tauto; try (destruct (rosok c && please (mg c))); try (destruct (rosok c)).
  all: try (destruct pr; simpl; try tauto).
  all: try (destruct (body H c0 (mg c)); simpl; try tauto; try (destruct c0; simpl; try tauto)).
  all: simpl; try tauto.
  all: intros X; repeat (destruct X as [<-|X]; [reflexivity|]); try tauto.
Qed.

(** the manager's catalogue unchanged, threads other than [k] unchanged, [k] not entering [prepared] *)
Lemma linv_quiet K0 h c c' k es :
  LInv K0 h c -> cur (mg c') = cur (mg c) -> (forall x, catb (mg c') x = catb (mg c) x) ->
  (forall j, j <> k -> thr c' j = thr c j) ->
  (forall e, In e es -> match e with HInv j _ | HLin j _ _ | HRes j _ => j = k end) ->
  effects es = [] -> protocol k (h ++ es) (pst (thr c' k)) ->
  (prepared (thr c' k) = None \/ prepared (thr c' k) = prepared (thr c k)) ->
  LInv K0 (h ++ es) c'.
Proof.
  intros [P L R] Ec Eb Et Hes He Hp Hpr. constructor.
  - intros j. destruct (Nat.eq_dec j k) as [->|Hn]; auto. rewrite (Et j Hn). apply proto_other; auto.
    intros e Hi. specialize (Hes e Hi). destruct e; congruence.
  - rewrite effects_app, He, app_nil_r. unfold catalogue. rewrite Ec, Eb. exact L.
  - intros j cl Hj. assert (Hj' : prepared (thr c j) = Some cl).
    { destruct (Nat.eq_dec j k) as [->|Hn]; [destruct Hpr; congruence|]. now rewrite <- (Et j Hn). }
    destruct (R j cl Hj') as (m & A & B). exists m. unfold catalogue in *. rewrite Ec, !Eb. auto.
Qed.

Lemma bframe_catb (m m' : mgr) : GoodList m (cur m) -> bframe m m' -> catalogue m' = catalogue m.
Proof.
  intros G B. unfold catalogue, catb. destruct B. rewrite bf_cur, bf_list, bf_sched. f_equal.
  apply map_ext_in. intros e He. rewrite bf_heap; auto. now apply (gl_lt m (cur m) G).
Qed.
Lemma commit_cat (m : mgr) : catalogue (commit m) = catb m (negb (cur m)).
Proof. unfold catalogue, catb, commit, clear_former, rt_moved_on, flip, resize_stats. simpl. now rewrite negb_upd. Qed.

Lemma known_iff (m : mgr) ns :
  forallb (fun n => match getControllerByName m n with Some _ => true | None => false end) ns = true <->
  forall n, In n ns -> In n (loaded_names m).
Proof.
  rewrite forallb_forall. split; intros X n Hn; specialize (X n Hn); unfold getControllerByName in *; fold (loaded m) in *.
  - destruct (find_entry n (loaded m)) as [e|] eqn:E; [|discriminate].
    apply find_entry_some in E. destruct E as [Hin <-]. now apply in_map.
  - destruct (find_entry n (loaded m)) as [e|] eqn:E; auto. apply find_entry_none in E. tauto.
Qed.

Lemma switch_alone a b s (m : mgr) :
  alone H (CSwitch a b s) m (Returned (match switch_body a b s m with Ready _ => true | _ => false end)) (catalogue m).
Proof.
  simpl. split; auto. eexists. split; [reflexivity|].
  unfold switch_body. destruct (Z.eqb_spec s STRICT) as [->|Hs].
  - change (Z.eqb (if Z.eqb STRICT 0 then BEST_EFFORT else STRICT) STRICT) with true.
    rewrite collect_spec. cbn [andb].
    pose proof (known_iff m b) as Kb. destruct (forallb _ b) eqn:Eb; cbn [negb].
    + rewrite (collect_spec (set_stop_req _ m) true a). cbn [andb].
      pose proof (known_iff (set_stop_req (stop_req m ++ resolve m b) m) a) as Ka.
      destruct (forallb _ a) eqn:Ea; cbn [negb].
      * split; auto. intros _. right. intros n Hn. apply in_app_or in Hn. destruct Hn as [Hn|Hn].
        -- apply (proj1 Ka eq_refl n Hn).
        -- apply (proj1 Kb eq_refl n Hn).
      * split; [discriminate|]. intros [X|X]; [congruence|]. apply Ka. intros n Hn. apply (X n). apply in_or_app. auto.
    + split; [discriminate|]. intros [X|X]; [congruence|]. apply Kb. intros n Hn. apply (X n). apply in_or_app. auto.
  - replace (Z.eqb (if Z.eqb s 0 then BEST_EFFORT else s) STRICT) with false.
    + rewrite collect_spec. cbn [andb]. rewrite collect_spec. cbn [andb]. split; auto.
    + symmetry. apply Z.eqb_neq. destruct (Z.eqb s 0); [discriminate|exact Hs].
Qed.

Lemma linv_th K0 h k c c' : InvB c -> rosok c = true -> LInv K0 h c -> th_step H k (thr c k) c = Some (Ok c') ->
  LInv K0 (h ++ hevs H (LTh k) c) c'.
Proof.
  intros I Hros L E.
  pose proof (hevs_mine k c) as Hm. pose proof (li_proto K0 h c L k) as P.
  assert (Hhold : crit (thr c k) = true -> hold_ok (mg c) (thr c k)).
  { intros X. rewrite <- (holder_eq c k I X). apply I. }
  pose proof (ib_core c I) as C.
  assert (Hone : crit (thr c k) = true -> forall j cl, j <> k -> prepared (thr c j) = Some cl -> False).
  { intros Hc j cl Hj Hp. assert (X : crit (thr c j) = true) by (destruct (thr c j); try discriminate; reflexivity).
    apply (ib_ctl c I) in X. apply (ib_ctl c I) in Hc. congruence. }
  assert (Hout : crit (thr c k) = false -> effects (hevs H (LTh k) c) = [] -> prepared (thr c' k) = None ->
     protocol k (h ++ hevs H (LTh k) c) (pst (thr c' k)) -> LInv K0 (h ++ hevs H (LTh k) c) c').
  { intros Hc He Hp Hpr. destruct (outsider_cat k c c' Hc E) as (A & B & D). eapply linv_quiet; eauto. }
  unfold hevs in *.
  destruct (thr c k) as [|pr|srv pr|srv cl kk|srv cl kk|srv cl kk|srv cl kk|srv cl kk|srv cl kk|srv cl kk|srv cl kk|srv cl kk|srv kk|srv kk] eqn:Ht;
    cbn [th_step] in E; cbn [pst] in P.
  - discriminate.
  - apply Hout; auto; destruct (srv_lock c); inversion E; subst; simpl; rewrite set_thr_same; auto. now rewrite app_nil_r.
  - destruct pr.
    + apply Hout; auto; inversion E; subst; simpl; destruct srv; simpl; rewrite set_thr_same; auto; rewrite app_nil_r; auto.
    + discriminate.
    + apply Hout; auto; inversion E; subst; simpl; rewrite set_thr_same; auto. simpl. now apply pr_inv.
    + apply Hout; auto; destruct (ctl_lock c); inversion E; subst; simpl; rewrite set_thr_same; auto. now rewrite app_nil_r.
    + apply Hout; auto; destruct (ctl_lock c); inversion E; subst; simpl; rewrite set_thr_same; auto. now rewrite app_nil_r.
    + apply Hout; auto; inversion E; subst; simpl; rewrite set_thr_same; auto. now rewrite app_nil_r.
    + apply Hout; auto; inversion E; subst; simpl; rewrite set_thr_same; auto. now rewrite app_nil_r.
    + apply Hout; auto; inversion E; subst; simpl; rewrite set_thr_same; auto. now rewrite app_nil_r.
    + apply Hout; auto; inversion E; subst; simpl; rewrite set_thr_same; auto. now rewrite app_nil_r.
  - apply Hout; auto; destruct (ctl_lock c); inversion E; subst; simpl; rewrite set_thr_same; destruct cl; auto; simpl; now rewrite app_nil_r.
  - inversion E; subst; clear E. apply linv_quiet with (c := c) (k := k); auto.
    + intros j Hj. now apply set_thr_other.
    + simpl. rewrite set_thr_same, app_nil_r. destruct (rosok c && free_in_use (mg c)); exact P.
    + simpl. rewrite set_thr_same. destruct (rosok c && free_in_use (mg c)); auto.
  - rewrite Hros in *. inversion E; subst; clear E. apply linv_quiet with (c := c) (k := k); auto.
    + intros j Hj. now apply set_thr_other.
    + simpl. rewrite set_thr_same, app_nil_r. exact P.
    + simpl. rewrite set_thr_same. auto.
  - (* TBody *)
    destruct (Hhold eq_refl) as (Hp & Hu). pose proof (core_inv (mg c) C Hu) as Iv.
    destruct (co_idle _ C Hp) as [Hr1 Hr2].
    assert (Hfail : forall m' ans, cur m' = cur (mg c) -> catalogue m' = catalogue (mg c) -> alone H cl (mg c) ans (catalogue (mg c)) ->
        c' = ret k srv (kk ans) (with_mg m' c) -> LInv K0 (h ++ [HLin k cl ans; HRes k ans]) c').
    { intros m' ans Ec Ek Al ->. constructor.
      - intros j. unfold ret. simpl. destruct (Nat.eq_dec j k) as [->|Hj].
        + rewrite set_thr_same. simpl.
          replace (h ++ [HLin k cl ans; HRes k ans]) with ((h ++ [HLin k cl ans]) ++ [HRes k ans]) by (rewrite <- app_assoc; reflexivity).
          apply pr_res, pr_lin, P.
        + rewrite set_thr_other by auto. apply proto_other; [apply L|]. intros e [<-|[<-|[]]]; auto.
      - rewrite effects_app. simpl. rewrite Ek. apply leg_snoc with (mg c); auto. apply L.
      - intros j cl' Hj. unfold ret in Hj. simpl in Hj. destruct (Nat.eq_dec j k) as [->|Hn].
        + rewrite set_thr_same in Hj. discriminate.
        + rewrite set_thr_other in Hj by auto. exfalso. eapply Hone; eauto. }
    assert (Hready : forall m', cur m' = cur (mg c) -> catalogue m' = catalogue (mg c) ->
        alone H cl (mg c) (Returned true) (catb m' (negb (cur m'))) ->
        LInv K0 (h ++ []) (with_thr k (TPub srv cl kk) (with_mg m' c))).
    { intros m' Ec Ek Al. rewrite app_nil_r. constructor.
      - intros j. simpl. destruct (Nat.eq_dec j k) as [->|Hj].
        + rewrite set_thr_same. exact P.
        + rewrite set_thr_other by auto. apply L.
      - simpl. rewrite Ek. apply L.
      - intros j cl' Hj. simpl in Hj |- *. destruct (Nat.eq_dec j k) as [->|Hn].
        + rewrite set_thr_same in Hj. simpl in Hj. inversion Hj; subst cl'. exists (mg c). auto.
        + rewrite set_thr_other in Hj by auto. exfalso. eapply Hone; eauto. }
    destruct cl as [env n|n|a b s]; cbn [body] in *.
    + pose proof (load_body_frame H env n (mg c)) as B.
      assert (Al : forall a m', loadController H env n (mg c) = Ok (a, m') -> alone H (CLoad env n) (mg c) a (catalogue m')).
      { intros a m' X. simpl. eauto. }
      unfold loadController in Al.
      destruct (load_body H env n (mg c)) as [m'|m'|m'|]; try discriminate; inversion E; subst; clear E;
        pose proof (bframe_catb _ _ (co_cur _ C) B) as Bc.
      * apply Hfail with m'; auto; [apply B|]. rewrite <- Bc. now apply Al.
      * apply Hready; auto; [apply B|]. rewrite <- commit_cat. now apply Al.
      * apply Hfail with m'; auto; [apply B|]. rewrite <- Bc. now apply Al.
    + pose proof (unload_body_frame n (mg c)) as B.
      assert (Al : forall a m', unloadController n (mg c) = Ok (a, m') -> alone H (CUnload n) (mg c) a (catalogue m')).
      { intros a m' X. simpl. eauto. }
      unfold unloadController in Al.
      destruct (unload_body n (mg c)) as [m'|m'|m'|]; try discriminate; inversion E; subst; clear E;
        destruct B as (B & _); pose proof (bframe_catb _ _ (co_cur _ C) B) as Bc.
      * apply Hfail with m'; auto; [apply B|]. rewrite <- Bc. now apply Al.
      * apply Hready; auto; [apply B|]. rewrite <- commit_cat. now apply Al.
      * apply Hfail with m'; auto; [apply B|]. rewrite <- Bc. now apply Al.
    + pose proof (switch_body_spec a b s (mg c)) as Sw. pose proof (switch_alone a b s (mg c)) as Al.
      destruct (switch_body a b s (mg c)) as [m'|m'|m'|]; try tauto.
      * inversion E; subst; clear E. rewrite (Sw Hp Hr1 Hr2) in *. apply Hfail with (mg c); auto.
      * destruct Sw as (ps & qs & -> & Hin). inversion E; subst; clear E. constructor.
        -- intros j. simpl. destruct (Nat.eq_dec j k) as [->|Hj].
           ++ rewrite set_thr_same. now apply pr_lin.
           ++ rewrite set_thr_other by auto. apply proto_other; [apply L|]. intros e [<-|[]]; auto.
        -- rewrite effects_app. simpl. apply leg_snoc with (mg c); [apply L|exact Al].
        -- intros j cl' Hj. simpl in Hj |- *. destruct (Nat.eq_dec j k) as [->|Hn].
           ++ rewrite set_thr_same in Hj. discriminate.
           ++ rewrite set_thr_other in Hj by auto. exfalso. eapply Hone; eauto.
  - (* TPub *) destruct (pub_lock c); inversion E; subst; clear E. apply linv_quiet with (c := c) (k := k); auto.
    + intros j Hj. now apply set_thr_other.
    + simpl. rewrite set_thr_same, app_nil_r. exact P.
    + simpl. rewrite set_thr_same. right. now rewrite Ht.
  - (* TFlip *) inversion E; subst; clear E. constructor.
    + intros j. simpl. destruct (Nat.eq_dec j k) as [->|Hj].
      * rewrite set_thr_same. now apply pr_lin.
      * rewrite set_thr_other by auto. apply proto_other; [apply L|]. intros e [<-|[]]; auto.
    + destruct (li_prep K0 h c L k cl) as (m & A & B); [now rewrite Ht|].
      rewrite effects_app. simpl. apply leg_snoc with m; auto. rewrite A. apply L.
    + intros j cl' Hj. simpl in Hj |- *. destruct (Nat.eq_dec j k) as [->|Hn].
      * rewrite set_thr_same in Hj. discriminate.
      * rewrite set_thr_other in Hj by auto. exfalso. eapply Hone; eauto.
  - inversion E; subst; clear E. apply linv_quiet with (c := c) (k := k); auto.
    + intros j Hj. now apply set_thr_other.
    + simpl. rewrite set_thr_same, app_nil_r. destruct (rosok c && former_in_use (mg c)); exact P.
    + simpl. rewrite set_thr_same. destruct (rosok c && former_in_use (mg c)); auto.
  - rewrite Hros in *. inversion E; subst; clear E. apply linv_quiet with (c := c) (k := k); auto.
    + intros j Hj. now apply set_thr_other.
    + simpl. rewrite set_thr_same, app_nil_r. exact P.
    + simpl. rewrite set_thr_same. auto.
  - (* TClear *) inversion E; subst; clear E. constructor.
    + intros j. simpl. destruct (Nat.eq_dec j k) as [->|Hj].
      * rewrite set_thr_same. now apply pr_res.
      * rewrite set_thr_other by auto. apply proto_other; [apply L|]. intros e [<-|[]]; auto.
    + rewrite effects_app. simpl. rewrite app_nil_r.
      replace (catalogue _) with (catalogue (mg c)); [apply L|].
      unfold catalogue, catb, clear_former. simpl. now rewrite negb_upd.
    + intros j cl' Hj. simpl in Hj |- *. destruct (Nat.eq_dec j k) as [->|Hn].
      * rewrite set_thr_same in Hj. discriminate.
      * rewrite set_thr_other in Hj by auto. exfalso. eapply Hone; eauto.
  - rewrite Hros in *. cbn [andb] in *. destruct (please (mg c)) eqn:Hp; inversion E; subst; clear E;
      apply linv_quiet with (c := c) (k := k); auto.
    + intros j Hj. now apply set_thr_other.
    + simpl. rewrite set_thr_same, app_nil_r. exact P.
    + simpl. rewrite set_thr_same. auto.
    + intros j Hj. now apply set_thr_other.
    + simpl. rewrite set_thr_same. now apply pr_res.
    + simpl. rewrite set_thr_same. auto.
  - rewrite Hros in *. inversion E; subst; clear E. apply linv_quiet with (c := c) (k := k); auto.
    + intros j Hj. now apply set_thr_other.
    + simpl. rewrite set_thr_same, app_nil_r. exact P.
    + simpl. rewrite set_thr_same. auto.
Qed.

Lemma linv_step K0 h l c c' : InvB c -> rosok c = true -> LInv K0 h c -> bstep H l c = Some (Ok c') ->
  (forall a b, l = LRt a b -> ~ stale_start c) -> LInv K0 (h ++ hevs H l c) c'.
Proof.
  intros I Hr L E Hst. destruct l as [a b|k|k srv pr| | | |f]; cbn [bstep] in E.
  - inversion E as [E']. destruct (rt_cat a b c c' I (Hst a b eq_refl) E') as (A & B & D). simpl.
    apply linv_quiet with (c := c) (k := 0); auto.
    + intros j _. now rewrite D.
    + intros e [].
    + rewrite app_nil_r, D. apply L.
    + right. now rewrite D.
  - now apply linv_th.
  - destruct (thr c k) eqn:Ht; inversion E; subst; clear E. apply linv_quiet with (c := c) (k := k); auto.
    + intros j Hj. now apply set_thr_other.
    + intros e [].
    + simpl. rewrite app_nil_r, set_thr_same. pose proof (li_proto _ _ _ L k) as P. rewrite Ht in P. destruct srv; exact P.
    + simpl. rewrite set_thr_same. destruct srv; auto.
  - destruct (pub_lock c); inversion E; subst; clear E. apply linv_quiet with (c := c) (k := 0); simpl; auto; [intros e []|].
    rewrite ?app_nil_r; try apply L; try (intros e []).
  - destruct (pub_lock c) as [[| |]|]; inversion E; subst; clear E. apply linv_quiet with (c := c) (k := 0); simpl; auto; [intros e []|].
    rewrite ?app_nil_r; try apply L; try (intros e []).
  - inversion E; subst; clear E. apply linv_quiet with (c := c) (k := 0); simpl; auto; [intros e []|].
    rewrite ?app_nil_r; try apply L; try (intros e []).
  - inversion E; subst; clear E. apply linv_quiet with (c := c) (k := 0); simpl; auto; [intros e []|].
    rewrite ?app_nil_r; try apply L; try (intros e []).
Qed.

Theorem linearizable m h c :
  Inv m -> please m = false -> hsteady H (quiet m) h c -> rosok c = true ->
  InvB c /\ LInv (catalogue m) h c.
Proof.
  intros Im Hp S. remember (quiet m) as c0 eqn:E0. induction S as [c|c h c1 l c2 S IH E Hst]; intros Hr; subst.
  - split; [apply (steady_inv H m [] (quiet m)); auto; constructor|]. constructor.
    + intros k. constructor.
    + constructor.
    + discriminate.
  - pose proof (rosok_back H _ _ _ E Hr) as Hr1. destruct (IH eq_refl Hr1) as (I & L). split.
    + exact (bstep_inv H l c1 _ Hpm Hpj I Hr1 E Hst Hr).
    + now apply linv_step.
Qed.

(** [hevs] is what the client sees: HRes exactly when the call's continuation gets that answer. *)
Lemma hevs_response k c c' srv a kk : cont (thr c k) = Some kk -> in_call (thr c k) = true ->
  insrv (thr c k) = srv -> th_step H k (thr c k) c = Some (Ok c') ->
  (In (HRes k a) (hevs H (LTh k) c) -> thr c' k = TProg srv (kk a)) /\
  ((forall a', ~ In (HRes k a') (hevs H (LTh k) c)) -> in_call (thr c' k) = true).
Proof.
  intros Hc Hi Hs E. unfold hevs.
  destruct (thr c k) as [|pr|sv pr|sv cl k1|sv cl k1|sv cl k1|sv cl k1|sv cl k1|sv cl k1|sv cl k1|sv cl k1|sv cl k1|sv k1|sv k1];
    try discriminate; simpl in Hc, Hs; inversion Hc; subst; clear Hc; cbn [th_step] in E.
  - inversion E; subst. simpl. rewrite set_thr_same. split; [tauto|]. intros _. now destruct (rosok c && free_in_use (mg c)).
  - inversion E; subst. destruct (rosok c); simpl; rewrite set_thr_same; (split; [|auto]).
    + tauto.
    + intros [X|[]]. inversion X; subst. reflexivity.
    + intros X. exfalso. apply (X (Returned false)). now left.
  - destruct (body H cl (mg c)) as [m'|m'|m'|]; try discriminate.
    + inversion E; subst. simpl. rewrite set_thr_same. split.
      * intros [X|[X|[]]]; inversion X; subst. reflexivity.
      * intros X. exfalso. eapply X. right. now left.
    + destruct cl; inversion E; subst; simpl; rewrite set_thr_same; (split; [|auto]); try tauto.
      intros [X|[]]; discriminate.
    + inversion E; subst. simpl. rewrite set_thr_same. split.
      * intros [X|[X|[]]]; inversion X; subst. reflexivity.
      * intros X. exfalso. eapply X. right. now left.
  - destruct (pub_lock c); inversion E; subst. simpl. rewrite set_thr_same. split; [tauto|auto].
  - inversion E; subst. simpl. rewrite set_thr_same. split; [|auto]. intros [X|[]]; discriminate.
  - inversion E; subst. simpl. rewrite set_thr_same. split; [tauto|]. intros _. now destruct (rosok c && former_in_use (mg c)).
  - inversion E; subst. destruct (rosok c); simpl; rewrite set_thr_same; (split; [|auto]).
    + tauto.
    + intros [X|[]]. inversion X; subst. reflexivity.
    + intros X. exfalso. apply (X (Returned false)). now left.
  - inversion E; subst. simpl. rewrite set_thr_same. split.
    + intros [X|[]]; inversion X; subst. reflexivity.
    + intros X. exfalso. eapply X. now left.
  - inversion E; subst. destruct (rosok c && please (mg c)); simpl; rewrite set_thr_same; (split; [|auto]).
    + tauto.
    + intros [X|[]]. inversion X; subst. reflexivity.
    + intros X. exfalso. eapply X. now left.
  - inversion E; subst. destruct (rosok c); simpl; rewrite set_thr_same; (split; [|auto]).
    + tauto.
    + intros [X|[]]. inversion X; subst. reflexivity.
    + intros X. exfalso. apply (X (Returned false)). now left.
Qed.
End CLin.
