(** C89: looking up other controllers from realtime code. *)
From Coq Require Import List String Arith Bool ZArith Lia.
From Verif.Model Require Import Base Scheduler Controller Manager ManagerConc.
From Verif.Spec Require Import SchedulerSpec ManagerSpec ConcSpec LookupSpec.
From Verif.Proofs Require Import SchedulerProofs ManagerProofs ManagerInv ManagerOps ConcBase ConcInv ConcTrace ConcProgress.
From Verif.Props Require Import ManagerProps ConcProps RaceProps.
Import ListNotations.
Local Open Scope string_scope.
Local Open Scope list_scope.
Local Open Scope nat_scope.

Section Lookup.
Context {W : Type} (H : hooks W) (HP : positive_periods H).
Let Hpm : (0 < h_per_mech H)%Z := proj1 HP.
Let Hpj : (0 < h_per_js H)%Z := proj2 HP.
Notation config := (config W).

Lemma waits (c : config) : InvB c -> used (mg c) = Some (negb (cur (mg c))) ->
  forall k, crit (thr c k) = true -> exists srv cl kk, thr c k = TWait2 srv cl kk \/ thr c k = TWait2b srv cl kk.
Proof.
  intros I U k C. pose proof (ib_hold c I) as Ho. rewrite (holder_eq c k I C) in Ho.
  assert (NU : ~ used_cur (mg c)) by (intros [E|E]; rewrite U in E; [discriminate|injection E as E; destruct (cur (mg c)); discriminate]).
  destruct (thr c k); cbn in C, Ho; try discriminate; try tauto; eauto.
Qed.

Lemma rt_used (c c' : config) a b : InvB c -> do_rt H a b c = Ok c' -> in_cycle c -> used (mg c') = used (mg c).
Proof.
  intros I E C.
  assert (Hst : ~ stale_start c) by (intros (_ & x & R & _); unfold in_cycle in C; rewrite R in C; exact C).
  destruct (do_rt_desc H Hpm Hpj a b c c' I Hst E) as (evs & T & D & _). unfold rt_desc in D.
  assert (Hfr : frame (mg c) (mg c') -> used (mg c') = used (mg c)) by (intros (_&_&_&E4&_); auto).
  unfold in_cycle in C. destruct (rt c) as [|x| |i|i|i| | |t| | |ps|ps|] eqn:Hr; try contradiction.
  1-8: apply Hfr; apply D.
  - destruct D as (-> & _). reflexivity.
  - destruct ps as [|p ps]; [destruct D as (-> & _); reflexivity|apply Hfr; apply D].
  - destruct ps as [|p ps]; [destruct D as (-> & _); reflexivity|apply Hfr; apply D].
  - destruct D as (-> & _). reflexivity.
Qed.

(** one step inside a cycle *)
Lemma cycle_step (c c' : config) l i u : InvB c -> bstep H l c = Some (Ok c') -> in_cycle c -> used (mg c) = Some u ->
  (cur (mg c) = i \/ u = i) ->
  lists (mg c') i = lists (mg c) i /\ used (mg c') = Some u /\ (cur (mg c') = i \/ u = i).
Proof.
  intros I E C U D.
  assert (SPARE : forall k b, writes (thr c k) (mg c) = Some b -> b <> i).
  { intros k b Wk ->. assert (Wc : i = negb (cur (mg c))).
    { destruct (thr c k) as [|pr|srv pr|srv cl kk|srv cl kk|srv cl kk|srv cl kk|srv cl kk|srv cl kk|srv cl kk|srv cl kk|srv cl kk|srv kk|srv kk]; try discriminate Wk;
        [destruct cl; try discriminate Wk|]; cbn in Wk; unfold free_list in Wk; congruence. }
    destruct D as [D| ->]; [destruct (cur (mg c)), i; discriminate|]. rewrite Wc in U.
    assert (Ck : crit (thr c k) = true) by (destruct (thr c k) as [|pr|srv pr|srv cl kk|srv cl kk|srv cl kk|srv cl kk|srv cl kk|srv cl kk|srv cl kk|srv cl kk|srv cl kk|srv kk|srv kk]; try discriminate Wk; reflexivity).
    destruct (waits c I U k Ck) as (srv & cl & kk & [T|T]); rewrite T in Wk; discriminate. }
  destruct l as [a b|k|k srv pr| | | |f].
  - cbn [bstep] in E. unfold do_rt in E. injection E as E.
    destruct (rt_step H _ a b (rt c) (mg c)) as [[m' pc']| | |] eqn:Er; cbn [bind] in E; try discriminate. injection E as <-. cbn [mg].
    destruct (rt_step_lists H _ _ _ _ _ _ _ Er) as (K1 & K2 & K3 & K4). rewrite K1, K3. split; auto. split; auto.
    rewrite <- U. apply (rt_used c (mkConfig m' pc' (thr c) (srv_lock c) (ctl_lock c) (rt_pub (rt c) pc' (pub_lock c)) (rosok c)
      (match rt c with RGot _ => m' | _ => snap c end) (match rt c with RGot _ => [] | _ => cyc c ++ new_events (mg c) m' end)) a b I); auto.
    unfold do_rt. rewrite Er. reflexivity.
  - destruct (C87_client_writes H k c c' E) as (WL & _ & WC & WU & _). split.
    + destruct (WL i) as [[L _]|Wk]; auto. exfalso. apply (SPARE k i Wk). auto.
    + rewrite WU. split; auto. destruct WC as [[_ WC]|(srv & cl & kk & T)]; [rewrite WC; auto|].
      destruct D as [D| ->]; [|auto]. right.
      assert (Ck : crit (thr c k) = true) by (rewrite T; reflexivity).
      pose proof (ib_hold c I) as Ho. rewrite (holder_eq c k I Ck), T in Ho. destruct Ho as (_ & [X|X] & _); rewrite U in X; [discriminate|].
      injection X as ->. auto.
  - cbn [bstep] in E. destruct (thr c k); try discriminate. injection E as <-. cbn. auto.
  - cbn [bstep] in E. destruct (pub_lock c); try discriminate. injection E as <-. cbn. auto.
  - cbn [bstep] in E. destruct (pub_lock c) as [[| |]|]; try discriminate. injection E as <-. cbn. auto.
  - cbn [bstep] in E. injection E as <-. cbn. auto.
  - cbn [bstep] in E. injection E as <-. cbn. auto.
Qed.

(** A cycle has begun; some code of a controller reads, at [c], which list is current and goes through it until [c2], in the
    same cycle.  However the service threads are scheduled in between, nobody modifies that list, it is still the list that
    was current, and every name finds the controller it would have found at once. *)
Theorem C89_lookup_in_cycle : forall n (c c2 : config), live H c -> in_cycle c ->
  segment H in_cycle_ok (fun _ _ _ => true) c n c2 ->
  let i := cur (mg c) in
  (forall k, writes (thr c2 k) (mg c2) <> Some i) /\
  lists (mg c2) i = loaded (mg c) /\
  forall name, find_in (lists (mg c2) i) name = getControllerByName (mg c) name.
Proof.
  intros n c c2 L C S i.
  pose proof (live_inv H Hpm Hpj c L) as I0.
  assert (Hu : exists u, used (mg c) = Some u).
  { pose proof (ib_rt c I0) as R. unfold in_cycle in C. destruct (rt c) as [|x| |j|j|j| | |t| | |ps|ps|]; try contradiction; cbn in R;
      try (destruct R as (b & -> & _); eauto; fail); try (destruct R as (R & _)); destruct (used (mg c)) as [u|]; eauto; contradiction. }
  destruct Hu as [u Hu].
  assert (X : live H c2 /\ in_cycle c2 /\ lists (mg c2) i = lists (mg c) i /\ used (mg c2) = Some u /\ (cur (mg c2) = i \/ u = i)).
  { induction S as [c|c n c1 l c2 S IH E Hst [HC HR]].
    - split; auto.
    - destruct (IH L C I0 Hu) as (L1 & C1 & E1 & U1 & D1). split; [eapply live_step; eauto|]. split; auto.
      destruct (cycle_step c1 c2 l i u (live_inv H Hpm Hpj c1 L1) E C1 U1 D1) as (A & B & D). split; [etransitivity; [exact A|exact E1]|]. auto. }
  destruct X as (L2 & C2 & E2 & U2 & D2). pose proof (live_inv H Hpm Hpj c2 L2) as I2.
  split; [|split; [exact E2|]].
  - intros k Wk. assert (Wc : i = negb (cur (mg c2))).
    { destruct (thr c2 k) as [|pr|srv pr|srv cl kk|srv cl kk|srv cl kk|srv cl kk|srv cl kk|srv cl kk|srv cl kk|srv cl kk|srv cl kk|srv kk|srv kk]; try discriminate Wk;
        [destruct cl; try discriminate Wk|]; cbn in Wk; unfold free_list in Wk; congruence. }
    destruct D2 as [D2|D2]; [rewrite D2 in Wc; destruct i; discriminate|]. rewrite D2, Wc in U2.
    assert (Ck : crit (thr c2 k) = true) by (destruct (thr c2 k) as [|pr|srv pr|srv cl kk|srv cl kk|srv cl kk|srv cl kk|srv cl kk|srv cl kk|srv cl kk|srv cl kk|srv cl kk|srv kk|srv kk]; try discriminate Wk; reflexivity).
    destruct (waits c2 I2 U2 k Ck) as (srv & cl & kk & [T|T]); rewrite T in Wk; discriminate.
  - intros name. rewrite E2. reflexivity.
Qed.
End Lookup.


(** ** examples *)
Definition in_cycle_okb {W} (c : config W) : bool := (match rt c with RIdle | RGot _ => false | _ => true end) && rosok c.
Fixpoint cycle_runs (ls : list (label exW)) (c : config exW) : option (config exW) :=
  match ls with
  | [] => Some c
  | l :: ls' => match bstep exH l c with
                | Some (Ok c') => if in_cycle_okb c' then cycle_runs ls' c' else None
                | _ => None end
  end.
Lemma segment_cons (c c1 : config exW) l : bstep exH l c = Some (Ok c1) -> (forall a b, l = LRt a b -> ~ stale_start c) -> in_cycle_ok c1 ->
  forall n c2, segment exH in_cycle_ok (fun _ _ _ => true) c1 n c2 -> exists n', segment exH in_cycle_ok (fun _ _ _ => true) c n' c2.
Proof.
  intros E Hs P n c2 S. induction S as [c1|c1 n c3 l' c4 S IH E' Hs' P'].
  - exists (0 + 1). change 1 with (if (fun _ _ _ => true) c l c1 then 1 else 0). apply seg_snoc; auto. apply seg_nil.
  - destruct (IH E P) as (n' & S'). exists (n' + 1). change 1 with (if (fun _ _ _ => true) c3 l' c4 then 1 else 0). eapply seg_snoc; eauto.
Qed.
Lemma cycle_runs_segment : forall ls (c c2 : config exW), in_cycle c -> cycle_runs ls c = Some c2 ->
  exists n, segment exH in_cycle_ok (fun _ _ _ => true) c n c2.
Proof.
  induction ls as [|l ls IH]; intros c c2 C E; cbn [cycle_runs] in E.
  - injection E as <-. exists 0. constructor.
  - destruct (bstep exH l c) as [[c1| | |]|] eqn:B; try discriminate. destruct (in_cycle_okb c1) eqn:K; [|discriminate].
    assert (P : in_cycle_ok c1).
    { unfold in_cycle_okb in K. apply andb_true_iff in K. destruct K as [K1 K2]. split; [|exact K2]. unfold in_cycle. destruct (rt c1); try discriminate; exact Logic.I. }
    destruct (IH c1 c2 (proj1 P) E) as (n & S). eapply segment_cons; eauto.
    intros a b _ (_ & x & R & _). unfold in_cycle in C. rewrite R in C. exact C.
Qed.

(** In the middle of a cycle the list is replaced under the feet of a controller that is looking something up. *)
Definition lookup_from : config exW := reached exH (rts 3) ex1.
Definition lookup_steps : list (label exW) := [LStart 0 true (load_service exEnv "d")] ++ ths 0 9 ++ rts 2.
Definition lookup_to : config exW := match cycle_runs lookup_steps lookup_from with Some c => c | None => lookup_from end.
Lemma some_value {A} (o : option A) d : (match o with Some _ => true | None => false end) = true -> o = Some (match o with Some c => c | None => d end).
Proof. destruct o; [reflexivity|discriminate]. Qed.
Example C89_ex : live exH lookup_from /\ in_cycle lookup_from /\
  (exists n, segment exH in_cycle_ok (fun _ _ _ => true) lookup_from n lookup_to) /\
  cur (mg lookup_from) = true /\ cur (mg lookup_to) = false /\ loaded_names (mg lookup_to) = ["a"; "b"; "c"; "d"] /\
  map e_name (lists (mg lookup_to) true) = ["a"; "b"; "c"].
Proof.
  split; [unfold lookup_from; ex_live|]. split; [vm_compute; exact Logic.I|].
  split; [apply (cycle_runs_segment lookup_steps); [vm_compute; exact Logic.I|apply some_value; vm_compute; reflexivity]|].
  split; [vm_compute; reflexivity|]. split; [vm_compute; reflexivity|]. split; vm_compute; reflexivity.
Qed.

(** Not so for other threads: somebody outside who reads at [lookup_from] which list is current may, one cycle later, be
    going through a list that a service thread is clearing, and find nothing. *)
Definition lookup_late : config exW := reached exH (rts 3 ++ [LStart 0 true (load_service exEnv "d")] ++ ths 0 8 ++ rts 14 ++ ths 0 2) ex1.
Definition lookup_later : config exW := reached exH (rts 3 ++ [LStart 0 true (load_service exEnv "d")] ++ ths 0 8 ++ rts 14 ++ ths 0 3) ex1.
Example C89_other_threads_not_safe :
  live exH lookup_late /\ writes (thr lookup_late 0) (mg lookup_late) = Some (cur (mg lookup_from)) /\
  live exH lookup_later /\ loaded_names (mg lookup_later) = ["a"; "b"; "c"; "d"] /\
  getControllerByName (mg lookup_from) "a" = Some 0 /\ find_in (lists (mg lookup_later) (cur (mg lookup_from))) "a" = None.
Proof.
  split; [unfold lookup_late; ex_live|]. split; [vm_compute; reflexivity|]. split; [unfold lookup_later; ex_live|].
  split; [vm_compute; reflexivity|]. split; vm_compute; reflexivity.
Qed.
