(** Proofs of C71. *)
From Coq Require Import List String Arith Bool ZArith Lia Sorting.Permutation.
From Verif.Model Require Import Base Scheduler Controller Manager ManagerConc.
From Verif.Spec Require Import SchedulerSpec ManagerSpec ConcSpec LinSpec ServiceSpec.
From Verif.Proofs Require Import SchedulerProofs ManagerProofs ManagerInv ManagerOps ConcBase ConcInv ConcTrace ConcLin.
Import ListNotations.

Section Service.
Context {W : Type} (H : hooks W).
Notation mgr := (mgr W).
Notation config := (config W).
Hypothesis Hpm : (0 < h_per_mech H)%Z.
Hypothesis Hpj : (0 < h_per_js H)%Z.

Definition lview (m : mgr) := (loaded m, scheds m (cur m)).
Lemma cat_view (m m' : mgr) : catalogue m' = catalogue m -> lview m' = lview m.
Proof.
  unfold catalogue, catb, lview, loaded. intros E. inversion E as [[E1 E2]]. f_equal.
  apply (f_equal (map (fun x => fst (fst x)))) in E1. rewrite !map_map in E1. cbn [fst] in E1. now rewrite !map_id in E1.
Qed.

Definition vnames (v : list entry * list nat) : list string := map e_name (fst v).
Definition answer_list (l : list (string * bool)) : prog := PReply l PEnd.
Definition final (cs : list string) : prog :=
  PNames (fun cs' => match cs ++ cs' with [] => PLoader PEnd | _ => PAbort end).
Definition killed (cs : list string) : answer -> prog :=
  fun a => match a with Returned true => unload_prog cs (final cs) PEnd | _ => PEnd end.
Lemma reload_unfold f : reload_service f =
  PNames (fun cs => match cs with [] => PLoader PEnd | _ => if negb f then PEnd else
     PCall (CSwitch [] cs BEST_EFFORT) (killed cs) end).
Proof. reflexivity. Qed.

(** how far list_controllers has come; [v]: the controllers when it began *)
Definition lstage (v : list entry * list nat) (F : string * bool -> Prop) (pr : prog) : Prop :=
  pr = PSched (fun sched => if Nat.eqb (List.length (vnames v)) (List.length sched)
                            then list_prog (vnames v) sched [] answer_list else PAbort) \/
  exists dn sched acc, snd v = dn ++ sched /\
    map (fun nb => Some (fst nb)) acc = map (nth_error (vnames v)) dn /\ Forall F acc /\
    (pr = list_prog (vnames v) sched acc answer_list \/
     exists j n q sched', sched = j :: sched' /\ nth_error (vnames v) j = Some n /\ In (mkEntry n q) (fst v) /\
       pr = PState q (fun b => list_prog (vnames v) sched' (acc ++ [(n, b)]) answer_list)).

(** what is left of the request [pr0] *)
Definition stage (v : list entry * list nat) (F : string * bool -> Prop) (m : mgr) (pr0 pr : prog) : Prop :=
  pr = PEnd \/
  (pr = pr0 /\ lview m = v) \/
  (exists f, pr0 = reload_service f /\ pr = PLoader PEnd /\ loaded m = []) \/
  (pr0 = reload_service true /\ fst v <> [] /\
     (pr = PCall (CSwitch [] (vnames v) BEST_EFFORT) (killed (vnames v)) \/
      (exists ns, pr = unload_prog ns (final (vnames v)) PEnd) \/ pr = PAbort)) \/
  (pr0 = list_request /\ lview m = v /\ lstage v F pr).

Definition witnessed (c0 : config) (l2 : list (label W)) (c : config) (nb : string * bool) : Prop :=
  exists c1 p, visited H c0 l2 c c1 /\ In (mkEntry (fst nb) p) (loaded (mg c0)) /\ snd nb = runningb (mg c1) p.

Definition calling (t : tstate) : option (bool * (answer -> prog)) :=
  match t with
  | TLock s _ k | TWait1 s _ k | TWait1b s _ k | TBody s _ k | TPub s _ k | TFlip s _ k | TWait2 s _ k
  | TWait2b s _ k | TClear s _ k | TSw s k | TSwb s k => Some (s, k)
  | _ => None
  end.

Definition since (m0 : mgr) (k : nat) (pr0 : prog) (ls : list (label W)) (c c0 : config) (l2 : list (label W)) : Prop :=
  exists l1, ls = l1 ++ l2 /\ steady H (quiet m0) l1 c0 /\ executing H k pr0 c0 l2 c /\ service pr0.

Definition thread_ok (m0 : mgr) (ls : list (label W)) (c : config) (k : nat) (t : tstate) : Prop :=
  match t with
  | TIdle => True
  | TWant pr => service pr
  | TProg srv pr => srv = true /\ exists pr0 c0 l2, since m0 k pr0 ls c c0 l2 /\
      stage (lview (mg c0)) (witnessed c0 l2 c) (mg c) pr0 pr
  | t => match calling t with
         | Some (srv, kk) => srv = true /\ exists pr0 c0 l2, since m0 k pr0 ls c c0 l2 /\
             forall F m a, stage (lview (mg c0)) F m pr0 (kk a)
         | None => False
         end
  end.

Lemma steady_app c0 l1 c1 : steady H c0 l1 c1 -> forall l2 c2, steady H c1 l2 c2 -> steady H c0 (l1 ++ l2) c2.
Proof.
  intros S1 l2 c2 S2. induction S2 as [c|c ls c2 l c3 S2 IH E Hst].
  - now rewrite app_nil_r.
  - rewrite app_assoc. eapply steady_snoc; eauto.
Qed.
Lemma steady_one c l c' : bstep H l c = Some (Ok c') -> (forall a b, l = LRt a b -> ~ stale_start c) -> steady H c [l] c'.
Proof. intros E Hst. apply (steady_snoc H c [] c l c'); auto. constructor. Qed.

Lemma since_snoc m0 k pr0 ls c c0 l2 l c' :
  since m0 k pr0 ls c c0 l2 -> bstep H l c = Some (Ok c') -> (forall a b, l = LRt a b -> ~ stale_start c) ->
  (forall s q, l <> LStart k s q) -> since m0 k pr0 (ls ++ [l]) c' c0 (l2 ++ [l]).
Proof.
  intros (l1 & -> & S1 & (S2 & Ht & Hn) & Hs) E Hst Hl. exists l1. split; [now rewrite app_assoc|]. split; auto.
  split; auto. split; [eapply steady_snoc; eauto|]. split; auto.
  intros s q Hin. apply in_app_or in Hin. destruct Hin as [Hin|[->|[]]]; [eapply Hn; eauto|eapply Hl; eauto].
Qed.
Lemma seen_snoc c0 l2 c l c' nb :
  witnessed c0 l2 c nb -> bstep H l c = Some (Ok c') -> (forall a b, l = LRt a b -> ~ stale_start c) ->
  witnessed c0 (l2 ++ [l]) c' nb.
Proof.
  intros (c1 & p & (a & b & -> & S1 & S2) & Hin & Hb) E Hst. exists c1, p. split; auto.
  exists a, (b ++ [l]). split; [now rewrite app_assoc|]. split; auto. eapply steady_snoc; eauto.
Qed.
Lemma lstage_mono v (F G : string * bool -> Prop) pr : (forall x, F x -> G x) -> lstage v F pr -> lstage v G pr.
Proof.
  intros HFG [E|(dn & sched & acc & E1 & E2 & E3 & E4)]; [left; auto|].
  right. exists dn, sched, acc. repeat (split; auto). eapply Forall_impl; eauto.
Qed.
Lemma stage_mono v (F G : string * bool -> Prop) m m' pr0 pr : (forall x, F x -> G x) -> lview m' = lview m ->
  stage v F m pr0 pr -> stage v G m' pr0 pr.
Proof.
  intros HFG Ev [E|[(E1 & E2)|[(f & E1 & E2 & E3)|[E|(E1 & E2 & E3)]]]].
  - now left.
  - right; left. rewrite Ev. auto.
  - right; right; left. exists f. apply (f_equal fst) in Ev. simpl in Ev. rewrite Ev. auto.
  - right; right; right; left. auto.
  - right; right; right; right. rewrite Ev. repeat (split; auto). eapply lstage_mono; eauto.
Qed.

(** a thread that does not move: the controllers must not change if it is between calls *)
Lemma thread_stays m0 ls c l c' k t : thread_ok m0 ls c k t ->
  bstep H l c = Some (Ok c') -> (forall a b, l = LRt a b -> ~ stale_start c) -> (forall s q, l <> LStart k s q \/ t = TIdle) ->
  ((exists srv pr, t = TProg srv pr) -> lview (mg c') = lview (mg c)) ->
  thread_ok m0 (ls ++ [l]) c' k t.
Proof.
  intros T E Hst Hl Hv.
  destruct t as [|pr|srv pr|srv cl kk|srv cl kk|srv cl kk|srv cl kk|srv cl kk|srv cl kk|srv cl kk|srv cl kk|srv cl kk|srv kk|srv kk];
    cbn [thread_ok calling] in *; auto.
  1: { destruct T as (Hs & pr0 & c0 & l2 & HS & HT). split; auto. exists pr0, c0, (l2 ++ [l]). split.
    - eapply since_snoc; eauto. intros s q. destruct (Hl s q) as [X|X]; [auto|discriminate].
    - eapply stage_mono; [|apply Hv; eauto|exact HT]. intros x Hx. eapply seen_snoc; eauto. }
  all: destruct T as (Hs & pr0 & c0 & l2 & HS & HT); split; auto; exists pr0, c0, (l2 ++ [l]); split; [|exact HT];
    eapply since_snoc; eauto; intros s q; destruct (Hl s q) as [X|X]; [auto|discriminate].
Qed.

Definition SInv (m0 : mgr) (ls : list (label W)) (c : config) : Prop := forall k, thread_ok m0 ls c k (thr c k).

Lemma ok_insrv m0 ls c k t : thread_ok m0 ls c k t -> (insrv t = true) \/ t = TIdle \/ exists pr, t = TWant pr.
Proof.
  destruct t; cbn [thread_ok calling insrv]; intros T; eauto; left; tauto.
Qed.

Lemma names_nth (m : mgr) n : In n (loaded_names m) -> exists q, getControllerByName m n = Some q /\ In (mkEntry n q) (loaded m).
Proof.
  intros Hin. unfold getControllerByName. fold (loaded m). destruct (find_entry n (loaded m)) as [e|] eqn:E.
  - apply find_entry_some in E. destruct E as (E1 & E2). exists (e_ptr e). split; auto. destruct e; simpl in *; subst; auto.
  - apply find_entry_none in E. contradiction.
Qed.

Ltac take E c' :=
  let EE := fresh in
  match type of E with Some (Ok ?x) = _ => assert (EE : c' = x) by congruence end; subst c'; clear E.
(** one step of the thread executing a request, between calls *)
Lemma prog_step m0 ls c k pr c' :
  InvB c -> thread_ok m0 ls c k (TProg true pr) -> thr c k = TProg true pr ->
  bstep H (LTh k) c = Some (Ok c') -> thread_ok m0 (ls ++ [LTh k]) c' k (thr c' k).
Proof.
  intros I (_ & pr0 & c0 & l2 & HS & HT) Hk E.
  assert (HS' : since m0 k pr0 (ls ++ [LTh k]) c' c0 (l2 ++ [LTh k])).
  { eapply since_snoc; eauto; intros; discriminate. }
  assert (HF : forall x, witnessed c0 l2 c x -> witnessed c0 (l2 ++ [LTh k]) c' x).
  { intros x Hx. eapply seen_snoc; eauto; intros; discriminate. }
  pose proof E as E0. cbn [bstep] in E. rewrite Hk in E. cbn [th_step] in E.
  assert (Stay : forall q, thr c' k = TProg true q -> stage (lview (mg c0)) (witnessed c0 (l2 ++ [LTh k]) c') (mg c') pr0 q ->
     thread_ok m0 (ls ++ [LTh k]) c' k (thr c' k)).
  { intros q -> Hq. cbn [thread_ok]. split; auto. exists pr0, c0, (l2 ++ [LTh k]). auto. }
  assert (Call : forall cl kk, thr c' k = TLock true cl kk -> (forall F m a, stage (lview (mg c0)) F m pr0 (kk a)) ->
     thread_ok m0 (ls ++ [LTh k]) c' k (thr c' k)).
  { intros cl kk -> Hq. cbn [thread_ok calling]. split; auto. exists pr0, c0, (l2 ++ [LTh k]). auto. }
  assert (Hend : forall F m a, stage (lview (mg c0)) F m pr0 ((fun _ : answer => PEnd) a)) by (intros; now left).
  destruct HT as [-> |[(Ep & Ev)|[(f & E1 & -> & E3)|[(E1 & E2 & E3)|(E1 & E2 & E3)]]]].
  - inversion E; subst. cbn. rewrite set_thr_same. exact Logic.I.
  - (* the request itself *)
    subst pr. destruct HS as (l1 & Hls & S1 & X & Sv). destruct Sv as [env n|n|start stop s| |force].
    + cbn in E. inversion E; subst. eapply Call; [cbn [with_thr thr]; now rewrite set_thr_same|]. exact Hend.
    + cbn in E. inversion E; subst. eapply Call; [cbn [with_thr thr]; now rewrite set_thr_same|]. exact Hend.
    + cbn in E. inversion E; subst. eapply Call; [cbn [with_thr thr]; now rewrite set_thr_same|]. exact Hend.
    + unfold list_request, list_service in E. destruct (ctl_lock c); [discriminate|].
      replace (getControllerNames (mg c) []) with (vnames (lview (mg c0))) in E by (rewrite <- Ev; reflexivity).
      take E c'.
      eapply Stay; [cbn [with_thr thr]; now rewrite set_thr_same|]. right; right; right; right. split; auto. split; [exact Ev|].
      left. reflexivity.
    + rewrite reload_unfold in E. destruct (ctl_lock c); [discriminate|].
      replace (getControllerNames (mg c) []) with (vnames (lview (mg c0))) in E by (rewrite <- Ev; reflexivity).
      take E c'.
      eapply Stay; [cbn [with_thr thr]; now rewrite set_thr_same|].
      destruct (vnames (lview (mg c0))) as [|n ns] eqn:En.
      * right; right; left. exists force. split; auto. split; auto. unfold vnames in En. apply map_eq_nil in En.
        exact (eq_trans (f_equal fst Ev) En).
      * destruct force; [|now left]. right; right; right; left. split; auto. split.
        { unfold vnames in En. destruct (fst (lview (mg c0))); [discriminate|discriminate]. }
        left. now rewrite En.
  - (* the loader *) inversion E; subst. eapply Stay; [cbn [with_thr thr]; now rewrite set_thr_same|]. now left.
  - (* forced reload *)
    destruct E3 as [-> |[(ns & ->)| ->]].
    + inversion E; subst. eapply Call; [cbn [with_thr thr]; now rewrite set_thr_same|]. intros F m a. unfold killed.
      destruct a as [[|]|]; try (now left). right; right; right; left. eauto 6.
    + destruct ns as [|n ns]; cbn [unload_prog] in E.
      * unfold final in E. destruct (ctl_lock c); [discriminate|].
        take E c'.
        eapply Stay; [cbn [with_thr thr]; now rewrite set_thr_same|]. right; right; right; left. split; auto. split; auto.
        right; right. destruct (vnames (lview (mg c0))) as [|x xs] eqn:En; [|reflexivity].
        unfold vnames in En. apply map_eq_nil in En. contradiction.
      * inversion E; subst. eapply Call; [cbn [with_thr thr]; now rewrite set_thr_same|]. intros F m a.
        destruct a as [[|]|]; try (now left). right; right; right; left. eauto 6.
    + discriminate.
  - (* list_controllers *)
    assert (Next : forall q, thr c' k = TProg true q -> mg c' = mg c -> lstage (lview (mg c0)) (witnessed c0 (l2 ++ [LTh k]) c') q ->
       thread_ok m0 (ls ++ [LTh k]) c' k (thr c' k)).
    { intros q Hq Hm HL. eapply Stay; eauto. right; right; right; right. rewrite Hm. auto. }
    destruct E3 as [-> |(dn & sched & acc & F1 & F2 & F3 & F4)].
    + destruct (ctl_lock c); [discriminate|].
      replace (getControllerSchedule (mg c)) with (snd (lview (mg c0))) in E by (rewrite <- E2; reflexivity).
      take E c'.
      assert (Hlen : Nat.eqb (List.length (vnames (lview (mg c0)))) (List.length (snd (lview (mg c0)))) = true).
      { rewrite <- E2. unfold vnames, lview. cbn [fst snd]. rewrite map_length.
        destruct (good_valid (mg c) (cur (mg c)) (co_cur _ (ib_core c I))) as (X & _). rewrite X. apply Nat.eqb_refl. }
      eapply Next; [cbn [with_thr thr]; now rewrite set_thr_same|reflexivity|]. right.
      exists [], (snd (lview (mg c0))), []. split; auto. split; auto. split; [constructor|]. left.
      now rewrite Hlen.
    + assert (F3' : Forall (witnessed c0 (l2 ++ [LTh k]) c') acc) by (eapply Forall_impl; eauto).
      destruct F4 as [-> |(j & n & q & sched' & -> & F5 & F6 & ->)].
      * destruct sched as [|j sched'].
        -- cbn in E. inversion E; subst. eapply Stay; [cbn [with_thr thr]; now rewrite set_thr_same|]. now left.
        -- assert (Hj : j < List.length (vnames (lview (mg c0)))).
           { rewrite <- E2 in *. destruct (good_valid (mg c) (cur (mg c)) (co_cur _ (ib_core c I))) as (_ & X).
             rewrite Forall_forall in X. specialize (X j). unfold vnames. rewrite map_length.
             apply X. unfold lview in F1. cbn in F1. rewrite F1. apply in_or_app. right. now left. }
           cbn [list_prog] in E. destruct (nth_error (vnames (lview (mg c0))) j) as [n|] eqn:En.
           2: { apply nth_error_None in En. lia. }
           destruct (names_nth (mg c) n) as (q & Hq1 & Hq2).
           { apply nth_error_In in En. rewrite <- E2 in En. exact En. }
           rewrite Hq1 in E. take E c'.
           eapply Next; [cbn [with_thr thr]; now rewrite set_thr_same|reflexivity|]. right.
           exists dn, (j :: sched'), acc. split; auto. split; auto. split; auto. right.
           exists j, n, q, sched'. split; auto. split; auto. split; auto.
           rewrite <- E2. exact Hq2.
      * take E c'. eapply Next; [cbn [with_thr thr]; now rewrite set_thr_same|reflexivity|]. right.
        exists (dn ++ [j]), sched', (acc ++ [(n, isRunning (state_of (mg c) q))]).
        split; [rewrite F1, <- app_assoc; reflexivity|]. split; [rewrite !map_app, F2; cbn [map fst]; now rewrite F5|].
        split; [|now left]. apply Forall_app. split; auto. constructor; auto.
        destruct HS as (l1 & Hls & S1 & (S2 & _) & _).
        exists c, q. split; [|split].
        -- exists l2, [LTh k]. split; auto. split; auto. apply steady_one; auto. intros; discriminate.
        -- exact F6.
        -- reflexivity.
Qed.

Lemma call_step c k c' srv kk : rosok c = true -> calling (thr c k) = Some (srv, kk) -> bstep H (LTh k) c = Some (Ok c') ->
  (calling (thr c' k) = Some (srv, kk)) \/ exists a, thr c' k = TProg srv (kk a).
Proof.
  intros Hr Hc E. cbn [bstep] in E.
  destruct (thr c k) as [|pr|srv' pr|srv' cl kk'|srv' cl kk'|srv' cl kk'|srv' cl kk'|srv' cl kk'|srv' cl kk'|srv' cl kk'|srv' cl kk'|srv' cl kk'|srv' kk'|srv' kk'] eqn:Ht;
    cbn [calling] in Hc; try discriminate; inversion Hc; subst srv' kk'; clear Hc; cbn [th_step] in E.
  - destruct (ctl_lock c); [discriminate|]. inversion E; subst. left. cbn. rewrite set_thr_same. now destruct cl.
  - inversion E; subst. left. cbn. rewrite set_thr_same. destruct (rosok c && free_in_use (mg c)); reflexivity.
  - inversion E; subst. rewrite Hr. left. cbn. now rewrite set_thr_same.
  - destruct (body H cl (mg c)) as [m'|m'|m'|]; [| |inversion E; subst|discriminate].
    + inversion E; subst. right. eexists. cbn. now rewrite set_thr_same.
    + destruct cl; inversion E; subst; left; cbn; now rewrite set_thr_same.
    + right. eexists. cbn. now rewrite set_thr_same.
  - destruct (pub_lock c); [discriminate|]. inversion E; subst. left. cbn. now rewrite set_thr_same.
  - inversion E; subst. left. cbn. now rewrite set_thr_same.
  - inversion E; subst. left. cbn. rewrite set_thr_same. destruct (rosok c && former_in_use (mg c)); reflexivity.
  - inversion E; subst. rewrite Hr. left. cbn. now rewrite set_thr_same.
  - inversion E; subst. right. eexists. cbn. now rewrite set_thr_same.
  - inversion E; subst. destruct (rosok c && please (mg c)); [left|right; eexists]; cbn; now rewrite set_thr_same.
  - inversion E; subst. rewrite Hr. left. cbn. now rewrite set_thr_same.
Qed.

Lemma calling_ok m0 ls c k t srv kk : calling t = Some (srv, kk) ->
  (thread_ok m0 ls c k t <-> srv = true /\ exists pr0 c0 l2, since m0 k pr0 ls c c0 l2 /\
             forall F m a, stage (lview (mg c0)) F m pr0 (kk a)).
Proof.
  destruct t; cbn [calling thread_ok]; intros E; try discriminate; inversion E; subst; tauto.
Qed.

Lemma th_other k c c' j : th_step H k (thr c k) c = Some (Ok c') -> j <> k -> thr c' j = thr c j.
Proof.
  intros E Hj.
  destruct (thr c k) as [|pr|srv pr|srv cl kk|srv cl kk|srv cl kk|srv cl kk|srv cl kk|srv cl kk|srv cl kk|srv cl kk|srv cl kk|srv kk|srv kk];
    cbn [th_step] in E; try discriminate.
  - destruct (srv_lock c); inversion E; subst. now apply set_thr_other.
  - destruct pr; try discriminate; try (destruct (ctl_lock c); try discriminate); inversion E; subst; cbn;
      destruct srv; now apply set_thr_other.
  - destruct (ctl_lock c); inversion E; subst. now apply set_thr_other.
  - inversion E; subst. now apply set_thr_other.
  - inversion E; subst. destruct (negb (rosok c)); now apply set_thr_other.
  - destruct (body H cl (mg c)) as [m'|m'|m'|]; try discriminate; [|destruct cl|]; inversion E; subst; now apply set_thr_other.
  - destruct (pub_lock c); inversion E; subst. now apply set_thr_other.
  - inversion E; subst. now apply set_thr_other.
  - inversion E; subst. now apply set_thr_other.
  - inversion E; subst. destruct (negb (rosok c)); now apply set_thr_other.
  - inversion E; subst. now apply set_thr_other.
  - inversion E; subst. destruct (rosok c && please (mg c)); now apply set_thr_other.
  - inversion E; subst. destruct (negb (rosok c)); now apply set_thr_other.
Qed.

Lemma step_sinv m0 ls c l c' :
  InvB c -> rosok c = true -> steady H (quiet m0) ls c -> SInv m0 ls c ->
  bstep H l c = Some (Ok c') -> (forall a b, l = LRt a b -> ~ stale_start c) ->
  (forall k srv pr, l = LStart k srv pr -> srv = true /\ service pr) -> SInv m0 (ls ++ [l]) c'.
Proof.
  intros I Hr St S E Hst Hl j.
  destruct l as [a b|k|k srv pr| | | |f].
  - cbn [bstep] in E. inversion E as [E']. destruct (rt_cat H Hpm Hpj a b c c' I (Hst a b eq_refl) E') as (Ec & Eb & Et).
    rewrite Et. apply thread_stays with c; auto; [intros; left; discriminate|].
    intros _. apply cat_view. unfold catalogue. now rewrite Ec, Eb.
  - pose proof E as E0. cbn [bstep] in E.
    destruct (Nat.eq_dec j k) as [->|Hj].
    + destruct (thr c k) as [|pr|srv pr|srv cl kk|srv cl kk|srv cl kk|srv cl kk|srv cl kk|srv cl kk|srv cl kk|srv cl kk|srv cl kk|srv kk|srv kk] eqn:Ht.
      1: discriminate E.
      1: { cbn [th_step] in E. destruct (srv_lock c) eqn:Es; [discriminate|]. inversion E; subst c'. clear E.
        cbn. rewrite set_thr_same. cbn [thread_ok]. split; auto.
        specialize (S k). rewrite Ht in S. cbn [thread_ok] in S.
        exists pr, (with_thr k (TProg true pr) (with_srv (Some k) c)), []. split.
        - exists (ls ++ [LTh k]). split; [now rewrite app_nil_r|]. split; [|split; auto].
          + eapply steady_snoc; eauto.
          + split; [constructor|]. split; [cbn; now rewrite set_thr_same|]. intros s q [].
        - right; left. auto. }
      1: { pose proof (S k) as T. rewrite Ht in T. assert (srv = true) as -> by (cbn in T; tauto).
        eapply prog_step; eauto. }
      all: pose proof (S k) as T; rewrite Ht in T;
        assert (Hc : calling (thr c k) = Some (srv, kk)) by (rewrite Ht; reflexivity);
        pose proof (call_step c k c' srv kk Hr Hc E0) as CS; clear Hc;
        destruct CS as [X|(a & X)];
        [apply (calling_ok m0 (ls ++ [LTh k]) c' k _ srv kk X)|rewrite X; cbn [thread_ok]];
        destruct T as (-> & pr0 & c0 & l2 & HS & HT); (split; [reflexivity|]); exists pr0, c0, (l2 ++ [LTh k]); (split; [|try apply HT; exact HT]);
        (eapply since_snoc; eauto; intros; discriminate).
    + rewrite (th_other k c c' j E Hj). apply thread_stays with c; auto; [intros; left; discriminate|].
      intros (srv & pr & Htj). pose proof (S j) as T. rewrite Htj in T. cbn in T. destruct T as (-> & _).
      assert (Hsj : srv_lock c = Some j) by (apply (ib_srv c I); rewrite Htj; reflexivity).
      destruct (ok_insrv _ _ _ _ _ (S k)) as [X|[X|(p & X)]].
      * apply (ib_srv c I) in X. congruence.
      * rewrite X in E. discriminate.
      * rewrite X in E. cbn [th_step] in E. rewrite Hsj in E. discriminate.
  - destruct (Hl k srv pr eq_refl) as (-> & Sv). pose proof E as E0. cbn [bstep] in E.
    destruct (thr c k) eqn:Ht; try discriminate. inversion E; subst c'. clear E.
    destruct (Nat.eq_dec j k) as [->|Hj].
    + cbn. rewrite set_thr_same. exact Sv.
    + cbn [with_thr thr]. rewrite set_thr_other by auto. apply thread_stays with c; auto. intros s q. left. congruence.
  - pose proof E as E0. cbn [bstep] in E. destruct (pub_lock c); inversion E; subst c'. clear E.
    apply (thread_stays m0 ls c _ _ j (thr c j)); auto. intros; left; discriminate.
  - pose proof E as E0. cbn [bstep] in E. destruct (pub_lock c) as [[| |]|]; inversion E; subst c'. clear E.
    apply (thread_stays m0 ls c _ _ j (thr c j)); auto. intros; left; discriminate.
  - pose proof E as E0. cbn [bstep] in E. inversion E; subst c'. clear E.
    apply (thread_stays m0 ls c _ _ j (thr c j)); auto. intros; left; discriminate.
  - pose proof E as E0. cbn [bstep] in E. inversion E; subst c'. clear E.
    apply (thread_stays m0 ls c _ _ j (thr c j)); auto. intros; left; discriminate.
Qed.

Theorem served_sinv m ls c : served H m ls c -> SInv m ls c /\ InvB c.
Proof.
  intros (Hr & Hp & S & Ho & V).
  assert (Im : Inv m) by (now apply (reachable_inv H)).
  split; [|eapply steady_inv; eauto].
  remember (quiet m) as c0 eqn:E0. revert Ho V. induction S as [c|c ls c1 l c2 S IH E Hst]; intros Ho V; subst.
  - intros k. exact Logic.I.
  - pose proof (rosok_back H _ _ _ E Ho) as Hr1.
    apply step_sinv with c1; auto.
    + eapply steady_inv; eauto.
    + apply IH; auto. intros k srv pr Hin. apply (V k). apply in_or_app. auto.
    + intros k srv pr ->. apply (V k). apply in_or_app. right. now left.
Qed.

(* ------------------------------------------------------------------ controllers change state by callbacks *)
Lemma rt_states a b c c' : InvB c -> ~ stale_start c -> do_rt H a b c = Ok c' ->
  exists evs, trace (mg c') = trace (mg c) ++ evs /\
    (existsb is_switching evs = false -> forall p, state_of (mg c') p = state_of (mg c) p).
Proof.
  intros I Hst E. destruct (do_rt_desc H Hpm Hpj a b c c' I Hst E) as (evs & Htr & D & _). exists evs. split; auto.
  unfold rt_desc in D. intros Hn.
  assert (Hs : same_states (mg c) (mg c') -> forall p, state_of (mg c') p = state_of (mg c) p) by auto.
  destruct (rt c) as [|x| |i|i|i| | |t| | |ps|ps|].
  - destruct D as (-> & _). auto.
  - destruct D as (-> & _). auto.
  - apply Hs. tauto.
  - destruct D as (_ & b' & _ & [(e & _ & _ & D)|D]); [|apply Hs; tauto].
    destruct (runningb (mg c) (e_ptr e)); [destruct D as (-> & _); discriminate|apply Hs; tauto].
  - destruct D as (_ & b' & e & _ & _ & _ & -> & _). discriminate.
  - apply Hs. tauto.
  - apply Hs. tauto.
  - apply Hs. tauto.
  - apply Hs. tauto.
  - apply Hs. tauto.
  - destruct D as (-> & _). auto.
  - destruct ps; [destruct D as (-> & _); auto|destruct D as (_ & _ & -> & _); discriminate].
  - destruct ps; [destruct D as (-> & _); auto|destruct D as (_ & _ & -> & _); discriminate].
  - destruct D as (-> & _). auto.
Qed.

Lemma rt_next a b c c' : InvB c -> ~ stale_start c -> do_rt H a b c = Ok c' -> next (mg c') = next (mg c).
Proof.
  intros I Hst E. destruct (do_rt_desc H Hpm Hpj a b c c' I Hst E) as (evs & Htr & D & _). unfold rt_desc in D.
  assert (Hf : frame (mg c) (mg c') -> next (mg c') = next (mg c)) by (intros F; apply F).
  destruct (rt c) as [|x| |i|i|i| | |t| | |ps|ps|]; try (apply Hf; tauto); try (destruct D as (-> & _); reflexivity).
  - destruct ps; [destruct D as (-> & _); reflexivity|apply Hf; tauto].
  - destruct ps; [destruct D as (-> & _); reflexivity|apply Hf; tauto].
Qed.

Lemma steady_states m l1 c1 : Inv m -> please m = false -> steady H (quiet m) l1 c1 ->
  forall l2 c2, steady H c1 l2 c2 -> rosok c2 = true ->
  next (mg c1) <= next (mg c2) /\
  exists evs, trace (mg c2) = trace (mg c1) ++ evs /\
    (existsb is_switching evs = false -> forall p, p < next (mg c1) -> state_of (mg c2) p = state_of (mg c1) p).
Proof.
  intros Im Hp S1 l2 c2 S2. induction S2 as [c|c ls c2 l c3 S2 IH E Hst]; intros Ho.
  - split; auto. exists []. split; [now rewrite app_nil_r|auto].
  - pose proof (rosok_back H _ _ _ E Ho) as Hr. destruct (IH S1 Hr) as (Hn & evs & Htr & Hs).
    assert (I : InvB c2). { eapply (steady_inv H m (l1 ++ ls)); eauto. eapply steady_app; eauto. }
    assert (X : next (mg c2) <= next (mg c3) /\ exists evs', trace (mg c3) = trace (mg c2) ++ evs' /\
       (existsb is_switching evs' = false -> forall p, p < next (mg c2) -> state_of (mg c3) p = state_of (mg c2) p)).
    { destruct (step_cases H l c2 c3 I Hr E Ho) as [(a & b & -> & E')|C].
      - split.
        + rewrite (rt_next a b c2 c3 I (Hst a b eq_refl) E'). lia.
        + destruct (rt_states a b c2 c3 I (Hst a b eq_refl) E') as (evs' & T & Q). exists evs'. auto.
      - split; [apply (cl_next _ _ C)|]. destruct (cl_evs _ _ C) as (evs' & T & _). exists evs'. split; auto.
        intros _ p Hlt. unfold state_of. now rewrite (cl_heap _ _ C p Hlt). }
    destruct X as (Hn' & evs' & Htr' & Hs'). split; [lia|]. exists (evs ++ evs'). split.
    + now rewrite Htr', Htr, app_assoc.
    + rewrite existsb_app. intros Hx. apply orb_false_iff in Hx. destruct Hx as (X1 & X2). intros p Hlt.
      rewrite Hs' by (auto; lia). now apply Hs.
Qed.
End Service.

Section Loader.
Context {W : Type} (H : hooks W).
Notation mgr := (mgr W).
Notation config := (config W).
Hypothesis Hpm : (0 < h_per_mech H)%Z.
Hypothesis Hpj : (0 < h_per_js H)%Z.

Lemma new_none (m m' : mgr) evs e : trace m' = trace m ++ evs -> ~ In e evs -> ~ In e (new_events m m').
Proof. intros E N. now rewrite (new_events_app m m' evs E). Qed.
Lemma new_same (m : mgr) e : ~ In e (new_events m m).
Proof. apply new_none with []; [now rewrite app_nil_r|auto]. Qed.

(** only the loader step logs a new loader *)
Lemma loader_step l c c' : InvB c -> rosok c = true -> bstep H l c = Some (Ok c') ->
  (forall a b, l = LRt a b -> ~ stale_start c) ->
  In EvNewLoader (new_events (mg c) (mg c')) -> exists k srv pr, l = LTh k /\ thr c k = TProg srv (PLoader pr).
Proof.
  intros I Hr E Hst Hin.
  assert (Same : mg c' = mg c -> exists k srv pr, l = LTh k /\ thr c k = TProg srv (PLoader pr)).
  { intros Em. rewrite Em in Hin. now apply new_same in Hin. }
  assert (Add : forall evs, trace (mg c') = trace (mg c) ++ evs -> ~ In EvNewLoader evs ->
     exists k srv pr, l = LTh k /\ thr c k = TProg srv (PLoader pr)).
  { intros evs Et Hn. now apply (new_none _ _ evs) in Hin. }
  destruct l as [a b|k|k srv pr| | | |f].
  - cbn [bstep] in E. inversion E as [E'].
    destruct (do_rt_desc H Hpm Hpj a b c c' I (Hst a b eq_refl) E') as (evs & Htr & D & _).
    apply (Add evs Htr). unfold rt_desc in D.
    assert (N0 : ~ In EvNewLoader []) by (intros []).
    destruct (rt c) as [|x| |i|i|i| | |t| | |ps|ps|].
    + destruct D as (_ & _ & ->). exact N0.
    + destruct D as (_ & _ & ->). exact N0.
    + destruct D as (_ & _ & -> & _). cbn. intuition discriminate.
    + destruct D as (_ & b' & _ & [(e & _ & _ & D)|(_ & -> & _)]); [|exact N0].
      destruct (runningb (mg c) (e_ptr e)); destruct D as (-> & _); cbn; intuition discriminate.
    + destruct D as (_ & b' & e & _ & _ & _ & -> & _). cbn. intuition discriminate.
    + destruct D as (_ & _ & b' & _ & [(e & _ & _ & _ & ->)|(_ & -> & _)]).
      * destruct (runningb (mg c) (e_ptr e)); cbn; intuition discriminate.
      * cbn; intuition discriminate.
    + destruct D as (_ & _ & -> & _). cbn. intuition discriminate.
    + destruct D as (_ & _ & -> & _). exact N0.
    + destruct D as (_ & _ & _ & -> & _). cbn. intuition discriminate.
    + destruct D as (_ & _ & _ & [-> | ->]); cbn; intuition discriminate.
    + destruct D as (_ & -> & _). exact N0.
    + destruct ps; [destruct D as (_ & -> & _)|destruct D as (_ & _ & -> & _)]; cbn; intuition discriminate.
    + destruct ps; [destruct D as (_ & -> & _)|destruct D as (_ & _ & -> & _)]; cbn; intuition discriminate.
    + destruct D as (_ & -> & _). cbn. intuition discriminate.
  - cbn [bstep] in E.
    destruct (thr c k) as [|pr|srv pr|srv cl kk|srv cl kk|srv cl kk|srv cl kk|srv cl kk|srv cl kk|srv cl kk|srv cl kk|srv cl kk|srv kk|srv kk] eqn:Ht;
      cbn [th_step] in E; try discriminate.
    + destruct (srv_lock c); inversion E; subst. now apply Same.
    + destruct pr; [|discriminate| | | | | | |].
      7: { exists k, srv, pr. auto. }
      1: { apply Same. inversion E; subst. destruct srv; reflexivity. }
      2, 3: destruct (ctl_lock c); [discriminate|].
      all: apply Same; inversion E; subst; reflexivity.
    + destruct (ctl_lock c); inversion E; subst. now apply Same.
    + inversion E; subst. now apply Same.
    + inversion E; subst. apply Same. destruct (negb (rosok c)); reflexivity.
    + assert (Hi : forall evs, Forall is_init evs -> ~ In EvNewLoader evs).
      { intros evs Hf X. rewrite Forall_forall in Hf. destruct (Hf _ X) as (p & b & Y). discriminate. }
      assert (Hcl : crit (thr c k) = true) by (rewrite Ht; reflexivity).
      pose proof (ib_hold c I) as Hh. rewrite (holder_eq c k I Hcl), Ht in Hh. cbn in Hh. destruct Hh as (Hpl & _).
      destruct (co_idle _ (ib_core c I) Hpl) as (Hs1 & Hs2).
      destruct cl as [env n|n|start stop s]; cbn [body] in E.
      * pose proof (load_body_frame H env n (mg c)) as F. destruct (load_body H env n (mg c)) as [m'|m'|m'|]; try discriminate;
          inversion E; subst; destruct (bf_trace _ _ F) as (evs & Et & Ef); eapply Add; eauto.
      * pose proof (unload_body_frame n (mg c)) as F. destruct (unload_body n (mg c)) as [m'|m'|m'|]; try discriminate;
          inversion E; subst; destruct F as (F & _); destruct (bf_trace _ _ F) as (evs & Et & Ef); eapply Add; eauto.
      * pose proof (switch_body_spec start stop s (mg c)) as F.
        destruct (switch_body start stop s (mg c)) as [m'|m'|m'|]; try contradiction.
        -- inversion E; subst. apply Same. cbn. now apply F.
        -- destruct F as (ps & qs & -> & _). inversion E; subst. eapply Add; [cbn; reflexivity|]. cbn. intuition discriminate.
    + destruct (pub_lock c); inversion E; subst. now apply Same.
    + inversion E; subst. apply (Add []); cbn; [now rewrite app_nil_r|auto].
    + inversion E; subst. now apply Same.
    + inversion E; subst. apply Same. destruct (negb (rosok c)); reflexivity.
    + inversion E; subst. apply (Add []); cbn; [now rewrite app_nil_r|auto].
    + inversion E; subst. destruct (rosok c && please (mg c)); [now apply Same|].
      eapply Add; [cbn; reflexivity|]. cbn. intuition discriminate.
    + inversion E; subst. apply Same. destruct (negb (rosok c)); reflexivity.
  - cbn [bstep] in E. destruct (thr c k); inversion E; subst. now apply Same.
  - cbn [bstep] in E. destruct (pub_lock c); inversion E; subst. now apply Same.
  - cbn [bstep] in E. destruct (pub_lock c) as [[| |]|]; inversion E; subst. now apply Same.
  - cbn [bstep] in E. inversion E; subst. now apply Same.
  - cbn [bstep] in E. inversion E; subst. apply (Add []); cbn; [now rewrite app_nil_r|auto].
Qed.

Lemma list_prog_shape names sched acc :
  (exists n kk, list_prog names sched acc answer_list = PLookup n kk) \/
  (list_prog names sched acc answer_list = PAbort /\ exists j, In j sched /\ nth_error names j = None) \/
  (sched = [] /\ list_prog names sched acc answer_list = PReply acc PEnd).
Proof.
  destruct sched as [|j s]; cbn [list_prog]; [right; right; auto|].
  destruct (nth_error names j) eqn:En; [left; eauto|right; left; split; auto; exists j; split; auto; now left].
Qed.
Lemma service_shape pr : service pr ->
  (exists cl kk, pr = PCall cl kk) \/ exists kk, pr = PNames kk.
Proof. intros [ | | | | ]; [left|left|left|right|right]; unfold load_service, unload_service, switch_service, list_request, list_service, reload_service; eauto. Qed.
Lemma unload_shape ns cs : (exists cl kk, unload_prog ns (final cs) PEnd = PCall cl kk) \/
  exists kk, unload_prog ns (final cs) PEnd = PNames kk.
Proof. destruct ns; cbn; [right|left]; unfold final; eauto. Qed.

Lemma stage_loader v F (m : mgr) pr0 pr' : service pr0 -> stage v F m pr0 (PLoader pr') ->
  loaded m = [] /\ exists f, pr0 = reload_service f.
Proof.
  intros Sv [E|[(E & _)|[(f & E1 & E2 & E3)|[(E1 & E2 & E3)|(E1 & E2 & E3)]]]].
  - discriminate.
  - destruct (service_shape _ Sv) as [(cl & kk & X)|(kk & X)]; congruence.
  - eauto.
  - destruct E3 as [E3|[(ns & E3)|E3]]; try discriminate.
    destruct (unload_shape ns (vnames v)) as [(cl & kk & X)|(kk & X)]; congruence.
  - destruct E3 as [E3|(dn & sched & acc & _ & _ & _ & [E3|(j & n & q & s & _ & _ & _ & E3)])]; try discriminate.
    destruct (list_prog_shape (vnames v) sched acc) as [(n & kk & X)|[(X & _)|(_ & X)]]; congruence.
Qed.
Lemma stage_abort (v : list entry * list nat) F (m : mgr) pr0 : service pr0 -> GoodList m (cur m) -> stage v F m pr0 PAbort ->
  pr0 = reload_service true /\ fst v <> [].
Proof.
  intros Sv G [E|[(E & _)|[(f & E1 & E2 & E3)|[(E1 & E2 & E3)|(E1 & E2 & E3)]]]].
  - discriminate.
  - destruct (service_shape _ Sv) as [(cl & kk & X)|(kk & X)]; congruence.
  - discriminate.
  - auto.
  - destruct E3 as [E3|(dn & sched & acc & F1 & _ & _ & [E3|(j & n & q & s & _ & _ & _ & E3)])]; try discriminate.
    destruct (list_prog_shape (vnames v) sched acc) as [(n & kk & X)|[(_ & j & Hj & X)|(_ & X)]]; try congruence.
    exfalso. subst v. destruct (good_valid m (cur m) G) as (_ & Y). rewrite Forall_forall in Y.
    unfold lview in F1. cbn in F1. specialize (Y j). rewrite F1 in Y.
    apply nth_error_None in X. unfold vnames in X. rewrite map_length in X. unfold lview in X; cbn in X.
    unfold loaded in X. assert (j < List.length (lists m (cur m))) by (apply Y; apply in_or_app; now right). lia.
Qed.
Lemma stage_reply v F (m : mgr) pr0 l pr' : service pr0 -> stage v F m pr0 (PReply l pr') ->
  pr0 = list_request /\ pr' = PEnd /\ lview m = v /\ Forall F l /\
  map (fun nb => Some (fst nb)) l = map (nth_error (vnames v)) (snd v).
Proof.
  intros Sv [E|[(E & _)|[(f & E1 & E2 & E3)|[(E1 & E2 & E3)|(E1 & E2 & E3)]]]].
  - discriminate.
  - destruct (service_shape _ Sv) as [(cl & kk & X)|(kk & X)]; congruence.
  - discriminate.
  - destruct E3 as [E3|[(ns & E3)|E3]]; try discriminate.
    destruct (unload_shape ns (vnames v)) as [(cl & kk & X)|(kk & X)]; congruence.
  - destruct E3 as [E3|(dn & sched & acc & F1 & F2 & F3 & [E3|(j & n & q & s & _ & _ & _ & E3)])]; try discriminate.
    destruct (list_prog_shape (vnames v) sched acc) as [(n & kk & X)|[(X & _)|(-> & X)]]; try congruence.
    rewrite X in E3. inversion E3; subst. rewrite app_nil_r in F1. rewrite F1. auto.
Qed.

Lemma ok_prog m0 ls (c : config) k srv pr : SInv H m0 ls c -> thr c k = TProg srv pr ->
  exists pr0 c0 l1 l2, ls = l1 ++ l2 /\ steady H (quiet m0) l1 c0 /\ executing H k pr0 c0 l2 c /\ service pr0 /\
    stage (lview (mg c0)) (witnessed H c0 l2 c) (mg c) pr0 pr.
Proof.
  intros S Hk. specialize (S k). rewrite Hk in S. destruct S as (_ & pr0 & c0 & l2 & (l1 & E & S1 & X & Sv) & HT).
  exists pr0, c0, l1, l2. auto.
Qed.
End Loader.
