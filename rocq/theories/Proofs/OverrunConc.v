(** Overrun counters under concurrency. *)
From Coq Require Import List String Arith Bool ZArith Lia.
From Verif.Model Require Import Base Scheduler Controller Manager ManagerConc.
From Verif.Spec Require Import SchedulerSpec ManagerSpec SystemSpec ConcSpec StatsSpec.
From Verif.Proofs Require Import SchedulerProofs ManagerProofs ManagerInv ManagerOps WorldSteps StatsProofs ConcBase ConcInv ConcTrace ConcHist ConcCycle ConcProgress Race TimeConc.
Import ListNotations.

Section OC.
Context {W : Type} (H : hooks W).
Hypothesis Hpm : (0 < h_per_mech H)%Z.
Hypothesis Hpj : (0 < h_per_js H)%Z.
Notation mgr := (mgr W).
Notation config := (config W).

(** [q] is a property of statistics that the empty ones have and that one more sample keeps *)
Variable q : stats -> Prop.
Hypothesis q_new : q new_stats.
Hypothesis q_more : forall d t s s', q s -> one_more d t s s' -> q s'.

Definition all_q (m : mgr) : Prop := forall p, p < next m -> q (co_stats (heap m p)).

Lemma all_q_same (m m' : mgr) : next m' = next m -> (forall p, p < next m -> heap m' p = heap m p) -> all_q m -> all_q m'.
Proof. intros N E A p LT. rewrite N in LT. rewrite E by exact LT. now apply A. Qed.

Lemma load_body_q env n (m : mgr) : all_q m ->
  match load_body H env n m with Rejected m' | Thrown m' | Ready m' => all_q m' | Broken => True end.
Proof.
  intros A. assert (SAME : forall m' : mgr, next m' = next m -> heap m' = heap m -> all_q m').
  { intros m' N E. eapply all_q_same; eauto. intros p _. now rewrite E. }
  unfold load_body. cbv zeta. destruct (existsb _ _); [apply SAME; reflexivity|]. destruct (negb (pe_node_ok env n)); [apply SAME; reflexivity|].
  destruct (construct env n) as [[[ty pr]|]|]; try (apply SAME; reflexivity).
  destruct (initRequest _ pr CONSTRUCTED no_deps) as [[[ir cbs] s] d].
  match goal with |- context [calls H ?x cbs ?y] => pose proof (calls_spec H x cbs y) as (HE & NE & _);
    set (m2 := calls H x cbs y) in *; assert (A2 : all_q m2) end.
  { intros p LT. rewrite NE in LT. rewrite HE. cbn [next set_next set_heap heap] in *. unfold upd_heap. cbn [next set_lists] in LT |- *. destruct (Nat.eqb_spec p (next m)); [exact q_new|].
    apply A. lia. }
  assert (SAME2 : forall m' : mgr, next m' = next m2 -> heap m' = heap m2 -> all_q m').
  { intros m' N E. eapply all_q_same; eauto. intros p _. now rewrite E. }
  destruct ir as [[]|]; try (apply SAME2; reflexivity).
  destruct (scheduleControllers _ _); try exact Logic.I; apply SAME2; reflexivity.
Qed.
Lemma unload_body_q n (m : mgr) : all_q m ->
  match unload_body n m with Rejected m' | Thrown m' | Ready m' => all_q m' | Broken => True end.
Proof.
  intros A. pose proof (unload_body_frame n m) as F. destruct (unload_body n m); try exact Logic.I; destruct F as (_ & E & _ & N); (eapply all_q_same; [exact N|intros p _; now rewrite E|exact A]).
Qed.
Lemma switch_body_heap a b s (m : mgr) : match switch_body a b s m with Rejected m' | Thrown m' | Ready m' => heap m' = heap m /\ next m' = next m | Broken => True end.
Proof.
  unfold switch_body. cbv zeta. match goal with |- context [collect m ?x b] => destruct (collect m x b) as [ps|] end; [|split; reflexivity].
  match goal with |- context [collect ?y ?x a] => destruct (collect y x a) end; split; reflexivity.
Qed.

(** level A: every reachable state *)
Lemma reach_q m : reachable H m -> all_q m.
Proof.
  induction 1 as [m IN|m o a m' R IH S].
  - intros p LT. destruct IN as (_ & _ & _ & _ & _ & _ & _ & _ & _ & N). rewrite N in LT. lia.
  - pose proof (reachable_inv H m Hpm Hpj R) as INV. remember (Ok (a, m')) as r eqn:E. destruct S as [m env n P|m n P|m st sp k P|m l1 l2|m f|m P L].
    + unfold loadController in E. pose proof (load_body_q env n m IH) as B. destruct (load_body H env n m); try discriminate; injection E as <- <-; exact B.
    + unfold unloadController in E. pose proof (unload_body_q n m IH) as B. destruct (unload_body n m); try discriminate; injection E as <- <-; exact B.
    + pose proof (switch_body_heap st sp k m) as B. destruct (switch_body st sp k m); try discriminate; injection E as <- <-; destruct B as [B1 B2];
        (eapply all_q_same; [exact B2|intros p _; now rewrite B1|exact IH]).
    + destruct (update H l1 l2 m) as [m2| | |] eqn:U; cbn [bind] in E; try discriminate. injection E as <- <-.
      destruct (cycle_stats H l1 l2 m m2 INV Hpm Hpj U) as (C1 & C2 & _).
      destruct (update_spec H l1 l2 m INV Hpm Hpj) as (m3 & ? & ? & U3 & _ & L3 & _ & N3 & _). rewrite U in U3. injection U3 as <-.
      intros p LT. rewrite N3 in LT. destruct (in_dec Nat.eq_dec p (map e_ptr (loaded m))) as [IN|NIN].
      * apply in_map_iff in IN. destruct IN as (e & <- & IN). destruct (C2 e IN) as (? & ? & ? & ? & ? & ? & ? & _ & _ & _ & _ & OM). eapply q_more; [|exact OM]. now apply IH.
      * rewrite C1 by exact NIN. now apply IH.
    + injection E as <- <-. eapply all_q_same; [| |exact IH]; [reflexivity|]. intros p _. reflexivity.
    + injection E as <- <-. eapply all_q_same; [| |exact IH]; [reflexivity|]. intros p _. reflexivity.
Qed.

(** level B *)
Lemma th_q k c c' : all_q (mg c) -> th_step H k (thr c k) c = Some (Ok c') -> all_q (mg c').
Proof.
  intros A E. assert (SAME : forall c'' : config, heap (mg c'') = heap (mg c) -> next (mg c'') = next (mg c) -> all_q (mg c'')).
  { intros c'' X Y. eapply all_q_same; [exact Y|intros p _; now rewrite X|exact A]. }
  destruct (thr c k) as [|pr|srv pr|srv cl kk|srv cl kk|srv cl kk|srv cl kk|srv cl kk|srv cl kk|srv cl kk|srv cl kk|srv cl kk|srv kk|srv kk] eqn:Ht; cbn [th_step] in E.
  - discriminate.
  - destruct (srv_lock c); [discriminate|]. injection E as <-. apply SAME; reflexivity.
  - destruct pr; try (injection E as <-; apply SAME; reflexivity); try discriminate;
      try (destruct (ctl_lock c); [discriminate|]; injection E as <-; apply SAME; reflexivity).
    injection E as <-. destruct srv; apply SAME; reflexivity.
  - destruct (ctl_lock c); [discriminate|]. injection E as <-. apply SAME; reflexivity.
  - injection E as <-. apply SAME; reflexivity.
  - injection E as <-. destruct (negb (rosok c)); apply SAME; reflexivity.
  - destruct cl as [env n|n|a b s]; cbn [body] in E.
    + pose proof (load_body_q env n (mg c) A) as B. destruct (load_body H env n (mg c)); try discriminate; injection E as <-; exact B.
    + pose proof (unload_body_q n (mg c) A) as B. destruct (unload_body n (mg c)); try discriminate; injection E as <-; exact B.
    + pose proof (switch_body_heap a b s (mg c)) as B. destruct (switch_body a b s (mg c)) as [m'|m'|m'|]; try discriminate; injection E as <-; destruct B as [B1 B2]; apply SAME; assumption.
  - destruct (pub_lock c); [discriminate|]. injection E as <-. apply SAME; reflexivity.
  - injection E as <-. apply SAME; reflexivity.
  - injection E as <-. apply SAME; reflexivity.
  - injection E as <-. destruct (negb (rosok c)); apply SAME; reflexivity.
  - injection E as <-. apply SAME; reflexivity.
  - injection E as <-. destruct (rosok c && please (mg c)); apply SAME; reflexivity.
  - injection E as <-. destruct (negb (rosok c)); apply SAME; reflexivity.
Qed.

(** one iteration of the update loop *)
Lemma update_one_full m i m' : rt_update_one H m i = Ok m' ->
  exists e t0 w0 t1 w1, rt_nth m i = Ok e /\ h_now H (world m) = (t0, w0) /\
    h_now H (if runningb m (e_ptr e) then h_cb H (e_ptr e) CbUpdate w0 else w0) = (t1, w1) /\ world m' = w1 /\
    one_more (t1 - t0) t1 (co_stats (heap m (e_ptr e))) (co_stats (heap m' (e_ptr e))) /\
    forall p, p <> e_ptr e -> co_stats (heap m' p) = co_stats (heap m p).
Proof.
  intros E. assert (N : exists e, rt_nth m i = Ok e /\ m' = update_entry H m e).
  { unfold rt_update_one in E. destruct (rt_nth m i) as [e| | |]; cbn [bind] in E; try discriminate. exists e. split; [reflexivity|].
    unfold update_entry. destruct (now H m) as [t0 m0]. destruct (now H (update_ctrl H (e_ptr e) m0)) as [t1 m1]. injection E as <-. reflexivity. }
  destruct N as (e & N & ->). destruct (update_entry_world H m e) as (t0 & w0 & t1 & w1 & E0 & E1 & EW & _ & OM).
  exists e, t0, w0, t1, w1. do 5 (split; [assumption|]). intros p NE.
  destruct (update_one_samples H m i _ E) as (e' & d & N' & _).
  unfold update_entry. pose proof (ss_now H m) as A. destruct (now H m) as [t0' m0]. cbn [snd] in A.
  pose proof (ss_update H (e_ptr e) m0) as B. pose proof (ss_now H (update_ctrl H (e_ptr e) m0)) as C. destruct (now H (update_ctrl H (e_ptr e) m0)) as [t1' m1]. cbn [snd] in C.
  cbn. unfold upd_heap. destruct (Nat.eqb_spec p (e_ptr e)); [congruence|]. rewrite C, B. apply A.
Qed.

Lemma rt_q a b c c' : InvB c -> ~ stale_start c -> do_rt H a b c = Ok c' -> all_q (mg c) -> all_q (mg c').
Proof.
  intros I NS E A.
  assert (N : next (mg c') = next (mg c)).
  { destruct (do_rt_desc H Hpm Hpj a b c c' I NS E) as (evs & _ & D & _). unfold rt_desc in D.
    destruct (rt c) as [|x| |i|i|i| | |t| | |ps|ps|]; try (destruct D as [(_ & _ & _ & _ & X & _) _]; exact X).
    - destruct D as (-> & _). reflexivity.
    - destruct D as (-> & _). reflexivity.
    - destruct D as (-> & _). reflexivity.
    - destruct ps; [destruct D as (-> & _); reflexivity|destruct D as [(_ & _ & _ & _ & X & _) _]; exact X].
    - destruct ps; [destruct D as (-> & _); reflexivity|destruct D as [(_ & _ & _ & _ & X & _) _]; exact X].
    - destruct D as (-> & _). reflexivity. }
  unfold do_rt in E. destruct (rt_step H _ a b (rt c) (mg c)) as [[m' pc']| | |] eqn:E1; cbn [bind] in E; try discriminate. injection E as <-. cbn [mg] in *.
  assert (SAME : st_same (mg c) m' -> all_q m') by (intros X p LT; rewrite N in LT; rewrite X; now apply A).
  destruct (rt c) as [|x| |i|i|i| | |t| | |ps|ps|]; try (apply SAME; eapply (rt_same H); [exact E1|discriminate]).
  destruct pc' as [|x'| |i'|i'|i'| | |t'| | |ps'|ps'|]; try (apply SAME; eapply (rt_same H); [exact E1|discriminate]).
  cbn [rt_step] in E1. destruct (rt_list (mg c)) as [l| | |]; cbn [bind] in E1; try discriminate. destruct (Nat.ltb i (List.length l)); [|injection E1 as _ X; discriminate].
  destruct (rt_update_one H (mg c) i) as [m1| | |] eqn:U; cbn [bind] in E1; try discriminate. injection E1 as -> _.
  destruct (update_one_full _ _ _ U) as (e & t0 & w0 & t1 & w1 & _ & _ & _ & _ & OM & OTH). intros p LT. rewrite N in LT.
  destruct (Nat.eq_dec p (e_ptr e)) as [->|NE]; [eapply q_more; [|exact OM]; now apply A|]. rewrite OTH by exact NE. now apply A.
Qed.
Lemma step_q l c c' : InvB c -> rosok c = true -> bstep H l c = Some (Ok c') -> (forall a b, l = LRt a b -> ~ stale_start c) -> all_q (mg c) -> all_q (mg c').
Proof.
  intros I Hr E NS A. destruct l as [a b|k|k srv pr| | | |f]; cbn [bstep] in E.
  - injection E as E. eapply rt_q; eauto.
  - eapply th_q; eauto.
  - destruct (thr c k); try discriminate. injection E as <-. exact A.
  - destruct (pub_lock c); [discriminate|]. injection E as <-. exact A.
  - destruct (pub_lock c) as [[| |]|]; try discriminate; injection E as <-; exact A.
  - injection E as <-. exact A.
  - injection E as <-. exact A.
Qed.
End OC.
