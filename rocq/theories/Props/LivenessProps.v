(** C86: service calls return, in every infinite execution under a fair operating system. *)
From Coq Require Import List String Arith Bool ZArith Lia.
From Verif.Model Require Import Base Scheduler Controller Manager ManagerConc.
From Verif.Spec Require Import SchedulerSpec ManagerSpec ConcSpec LinSpec LivenessSpec.
From Verif.Proofs Require Import SchedulerProofs ManagerProofs ManagerInv ManagerOps ConcBase ConcInv ConcTrace
  ConcHist ConcCycle ConcProgress ConcLin Liveness.
From Verif.Props Require Import SchedulerProps ManagerProps ConcProps.
Import ListNotations.
Open Scope string_scope.
Open Scope list_scope.

Section Fair.
Context {W : Type} (H : hooks W).
Hypothesis Hpm : (0 < h_per_mech H)%Z.
Hypothesis Hpj : (0 < h_per_js H)%Z.

(** ** C86 *)
(** Every client - any number of them, each with any program of API calls - is idle again and again: every program ends. *)
Theorem C86_clients_finish : forall exe lab, endless H exe lab -> fair H exe lab ->
  forall k, always_again (fun n => thr (exe n) k = TIdle).
Proof. intros exe lab E F k n. exact (everybody_finishes H Hpm Hpj exe lab E F k n). Qed.

(** Every call returns: a thread in loadController, unloadController or switchController, waiting or not, later goes on with
    an answer. *)
Theorem C86_calls_return : forall exe lab, endless H exe lab -> fair H exe lab ->
  forall k n rest, cont (thr (exe n) k) = Some rest ->
  exists m a, n <= m /\ thr (exe m) k = TProg (insrv (thr (exe n) k)) (rest a).
Proof. intros exe lab E F k n rest C. exact (cont_ends H Hpm Hpj exe lab E F k n rest C). Qed.

(** Both locks of the manager are free again and again. *)
Theorem C86_locks_released : forall exe lab, endless H exe lab -> fair H exe lab ->
  always_again (fun n => ctl_lock (exe n) = None) /\ always_again (fun n => srv_lock (exe n) = None).
Proof. intros exe lab E F. split; [exact (ctl_again H Hpm Hpj exe lab E F)|exact (srv_again H Hpm Hpj exe lab E F)]. Qed.

(** The realtime loop completes cycle after cycle whatever the clients do. *)
Theorem C86_cycles_complete : forall exe lab, endless H exe lab -> fair H exe lab ->
  always_again (fun n => ends_cycle (exe n) (lab n) (exe (S n)) = true) /\
  always_again (fun n => takes_list (exe n) (lab n) (exe (S n)) = true).
Proof. intros exe lab E F. split; [exact (ends_again H Hpm Hpj exe lab E F)|exact (takes_again H Hpm Hpj exe lab E F)]. Qed.
End Fair.

(* ------------------------------------------------------------------ such executions exist *)
Section Exist.
Context {W : Type} (H : hooks W).
Hypothesis Hpm : (0 < h_per_mech H)%Z.
Hypothesis Hpj : (0 < h_per_js H)%Z.
Notation config := (config W).

Definition next_config (l : label W) (c : config) : config := match bstep H l c with Some (Ok c') => c' | _ => c end.
(** execute the steps [ls], then the realtime thread alone *)
Fixpoint path (ls : list (label W)) (c : config) (n : nat) {struct n} : config :=
  match n with
  | 0 => c
  | S n' => match ls with [] => path [] (next_config (LRt true true) c) n' | l :: ls' => path ls' (next_config l c) n' end
  end.
Definition lab_of (ls : list (label W)) (n : nat) : label W := nth n ls (LRt true true).

Definition settled (c : config) : Prop := rosok c = true /\ used (mg c) <> None /\ (forall k, thr c k = TIdle) /\ pub_lock c <> Some OPublisher.
Definition leads (ls : list (label W)) (c : config) : Prop :=
  live H c /\ pub_lock c <> Some OPublisher /\ ~ In LPubTake ls /\ exists c', srun H ls c = Some c' /\ settled c'.

Lemma rt_settled c : live H c -> settled c -> exists c', bstep H (LRt true true) c = Some (Ok c') /\ settled c' /\ ~ stale_start c.
Proof.
  intros L (R & U & T & P). destruct (never_blocked H Hpm Hpj true true c L) as (c' & E). exists c'. split; [exact E|].
  assert (NS : ~ stale_start c) by (intros (X & _); contradiction). split; [|exact NS].
  cbn [bstep] in E. injection E as E.
  destruct (do_rt_desc H Hpm Hpj true true _ _ (live_inv H Hpm Hpj c L) NS E) as (evs & _ & D & _).
  assert (U' : used (mg c') <> None).
  { assert (FR : frame (mg c) (mg c') -> used (mg c') <> None) by (intros (_&_&_&E4&_); congruence).
    unfold rt_desc in D. destruct (rt c) as [|x| |i|i|i| | |t| | |ps|ps|].
    all: try (destruct D as (-> & _); exact U || (cbn; congruence)).
    all: try (apply FR; apply D).
    - destruct ps; [destruct D as (-> & _); exact U|apply FR, D].
    - destruct ps; [destruct D as (-> & _); exact U|apply FR, D]. }
  unfold do_rt in E. destruct (rt_step H _ true true (rt c) (mg c)) as [[m' pc']| | |]; cbn [bind] in E; try discriminate.
  injection E as E. rewrite <- E in U' |- *. split; [exact R|]. split; [exact U'|]. split; [exact T|]. cbn. unfold rt_pub.
  destruct pc'; destruct (rt c); cbn; congruence.
Qed.

Lemma pub_not_publisher l c c' : pub_lock c <> Some OPublisher -> l <> LPubTake -> bstep H l c = Some (Ok c') -> pub_lock c' <> Some OPublisher.
Proof.
  intros P NL E. destruct l as [a b|k|k srv pr| | | |f]; cbn [bstep] in E.
  - unfold do_rt in E. injection E as E. destruct (rt_step H _ a b (rt c) (mg c)) as [[m' pc']| | |]; cbn [bind] in E; try discriminate.
    injection E as <-. cbn. unfold rt_pub. destruct pc'; destruct (rt c); cbn; congruence.
  - destruct (thr c k) as [|pr|srv pr|srv cl kk|srv cl kk|srv cl kk|srv cl kk|srv cl kk|srv cl kk|srv cl kk|srv cl kk|srv cl kk|srv kk|srv kk]; cbn [th_step] in E.
    all: repeat match goal with E : (match ?x with _ => _ end) = Some _ |- _ => destruct x eqn:?; try discriminate E end.
    all: try discriminate E; injection E as E; subst c'.
    all: repeat match goal with |- context [if ?x then _ else _] => destruct x end.
    all: cbn [pub_lock with_thr with_mg with_srv with_ctl with_pub ret]; congruence.
  - destruct (thr c k); try discriminate. injection E as <-. exact P.
  - congruence.
  - destruct (pub_lock c) as [[| |]|]; try discriminate. injection E as <-. discriminate.
  - injection E as <-. exact P.
  - injection E as <-. exact P.
Qed.

Lemma srun_ros ls : forall c c', srun H ls c = Some c' -> rosok c' = true -> rosok c = true.
Proof.
  induction ls as [|l ls IH]; intros c c' E R; cbn [srun] in E; [injection E as ->; exact R|].
  assert (X : match bstep H l c with Some (Ok c1) => srun H ls c1 | _ => None end = Some c') by (destruct l; try exact E; destruct (staleb c); [discriminate|exact E]).
  destruct (bstep H l c) as [[c1| | |]|] eqn:B; try discriminate. eapply rosok_back; [exact B|]. eapply IH; eauto.
Qed.

Lemma leads_step ls c : leads ls c -> let l := hd (LRt true true) ls in
  bstep H l c = Some (Ok (next_config l c)) /\ (forall a b, l = LRt a b -> ~ stale_start c) /\ leads (tl ls) (next_config l c).
Proof.
  intros (L & P & NP & c' & S & ST). destruct ls as [|l ls]; cbn [hd tl].
  - cbn in S. injection S as <-. destruct (rt_settled c L ST) as (c1 & E & ST1 & NS). unfold next_config. rewrite E. split; [reflexivity|]. split; [intros; exact NS|].
    split; [eapply live_step; eauto; apply ST1|]. split; [apply ST1|]. split; [exact NP|]. exists c1. auto.
  - cbn [srun] in S.
    assert (X : match bstep H l c with Some (Ok c1) => srun H ls c1 | _ => None end = Some c') by (destruct l; try exact S; destruct (staleb c); [discriminate|exact S]).
    assert (NS : forall a b, l = LRt a b -> ~ stale_start c) by (intros a b ->; destruct (staleb c) eqn:SB; [discriminate|apply staleb_spec; exact SB]).
    unfold next_config. destruct (bstep H l c) as [[c1| | |]|] eqn:B; try discriminate. split; [reflexivity|]. split; [exact NS|].
    assert (R1 : rosok c1 = true) by (eapply srun_ros; [exact X|apply ST]).
    split; [eapply live_step; eauto|]. split; [eapply pub_not_publisher; eauto; intros ->; apply NP; left; reflexivity|]. split; [intros I; apply NP; right; exact I|].
    exists c'. auto.
Qed.

Lemma path_leads : forall n ls c, leads ls c -> leads (skipn n ls) (path ls c n).
Proof.
  induction n as [|n IH]; intros ls c L; [exact L|]. destruct (leads_step ls c L) as (_ & _ & L'). destruct ls as [|l ls]; cbn [path skipn hd tl] in *.
  - specialize (IH [] _ L'). destruct n; exact IH.
  - exact (IH ls _ L').
Qed.
Lemma path_next : forall n ls c, path ls c (S n) = next_config (lab_of ls n) (path ls c n).
Proof.
  induction n as [|n IH]; intros ls c; [destruct ls; reflexivity|].
  destruct ls as [|l ls]; [change (path [] c (S (S n))) with (path [] (next_config (LRt true true) c) (S n))|change (path (l :: ls) c (S (S n))) with (path ls (next_config l c) (S n))]; rewrite IH.
  - unfold lab_of. destruct n; reflexivity.
  - reflexivity.
Qed.
Lemma hd_skipn (ls : list (label W)) n : hd (LRt true true) (skipn n ls) = lab_of ls n.
Proof. revert ls. induction n as [|n IH]; intros [|l ls]; cbn; auto. rewrite IH. reflexivity. Qed.

(** Any finite execution after which the clients are idle extends to a fair endless one. *)
Theorem C86_fair_executions_exist : forall c ls, leads ls c ->
  endless H (path ls c) (lab_of ls) /\ fair H (path ls c) (lab_of ls).
Proof.
  intros c ls L.
  assert (ST : forall n, bstep H (lab_of ls n) (path ls c n) = Some (Ok (path ls c (S n))) /\ forall a b, lab_of ls n = LRt a b -> ~ stale_start (path ls c n)).
  { intros n. pose proof (leads_step _ _ (path_leads n ls c L)) as X. rewrite hd_skipn in X. rewrite path_next. destruct X as (A & B & _). auto. }
  split.
  - constructor; [apply L|apply ST|apply ST|]. intros n. destruct (path_leads n ls c L) as (LV & _). exact (live_ros H _ LV).
  - assert (IDLE : forall n, List.length ls <= n -> forall k, thr (path ls c n) k = TIdle).
    { intros n LE k. destruct (path_leads n ls c L) as (_ & _ & _ & c' & S & _ & _ & T & _). rewrite skipn_all2 in S by exact LE. cbn in S. injection S as ->. apply T. }
    constructor.
    + intros n. exists (Nat.max n (List.length ls)). split; [lia|]. unfold lab_of. rewrite nth_overflow by lia. exact I.
    + intros n P. destruct (path_leads n ls c L) as (_ & X & _). contradiction.
    + intros k A. exfalso. destruct (A (List.length ls)) as (m & LE & E). apply E. cbn [bstep]. rewrite (IDLE m LE k). reflexivity.
Qed.
End Exist.

(** Non-vacuity: three controllers; a switch, a load and an unload by three threads that get in each other's way, then the
    realtime loop for ever.  Thread 2 waits for the lock held by thread 0, thread 1 for services_lock_. *)
Definition fair_prefix : list (label exW) :=
  rts 5 ++ [LStart 0 true (switch_service ["c"] ["a"; "nobody"] BEST_EFFORT); LStart 1 true (load_service exEnv "d"); LStart 2 false (unload_service "c")] ++
  ths 0 4 ++ [LTh 2] ++ rts 14 ++ ths 0 1 ++ ths 2 3 ++ ths 0 1 ++ ths 1 7 ++ rts 30 ++ ths 1 3 ++ ths 2 1.
Lemma fair_prefix_leads : leads exH fair_prefix (quiet ex1).
Proof.
  split; [exists ex1, []; split; [exact ex1_reachable|]; split; [exact ex1_idle|]; split; [constructor|reflexivity]|].
  split; [discriminate|]. split.
  { intros I. assert (X : existsb (fun l : label exW => match l with LPubTake => true | _ => false end) fair_prefix = true) by (apply existsb_exists; exists LPubTake; auto).
    vm_compute in X. discriminate. }
  assert (X : match srun exH fair_prefix (quiet ex1) with Some c => settled c | None => False end).
  { vm_compute. split; [reflexivity|]. split; [discriminate|]. split; [|discriminate]. intros [|[|[|k]]]; reflexivity. }
  destruct (srun exH fair_prefix (quiet ex1)) as [c'|]; [|destruct X]. exists c'. auto.
Qed.
Example C86_ex : endless exH (path exH fair_prefix (quiet ex1)) (lab_of fair_prefix) /\ fair exH (path exH fair_prefix (quiet ex1)) (lab_of fair_prefix) /\
  (let c := path exH fair_prefix (quiet ex1) 13 in ctl_lock c = Some 0 /\ thr c 1 <> TIdle /\ srv_lock c = Some 0 /\ bstep exH (LTh 2) c = None) /\
  loaded_names (mg (path exH fair_prefix (quiet ex1) (List.length fair_prefix))) = ["a"; "b"; "c"; "d"].
Proof.
  destruct (C86_fair_executions_exist exH eq_refl eq_refl (quiet ex1) fair_prefix fair_prefix_leads) as (A & B).
  split; [exact A|]. split; [exact B|]. split; [|vm_compute; reflexivity]. vm_compute. repeat split; auto; discriminate.
Qed.

(* ------------------------------------------------------------------ after ros::ok() turns false *)
(** pub_mech_stats_ is locked by a thread that is not in a call any more. *)
Definition leaked {W} (j : nat) (c : config W) : Prop :=
  pub_lock c = Some (OThread j) /\ (forall k, inpub (thr c k) = false) /\ (forall t, rt c <> RFill t).

Lemma leaked_forever {W} (H : hooks W) j l c c' : leaked j c -> bstep H l c = Some (Ok c') -> leaked j c'.
Proof.
  intros (P & N & R) E.
  assert (SET : forall k t k', inpub t = false -> inpub (set_thr (thr c) k t k') = false).
  { intros k t k' IT. unfold set_thr. destruct (Nat.eqb k' k); [exact IT|apply N]. }
  destruct l as [a b|k|k srv pr| | | |f]; cbn [bstep] in E.
  - injection E as E. unfold do_rt in E. rewrite P in E. destruct (rt_step H false a b (rt c) (mg c)) as [[m' pc']| | |] eqn:S; cbn [bind] in E; try discriminate.
    injection E as <-. assert (NF : forall t, pc' <> RFill t).
    { intros t ->. clear - S R. destruct (rt c) as [|x| |i|i|i| | |t'| | |ps|ps|]; cbn [rt_step] in S;
      repeat match goal with
      | S : (match ?x with _ => _ end) = Ok _ |- _ => destruct x eqn:?; cbn [bind] in S; try discriminate S
      | S : bind ?x _ = Ok _ |- _ => destruct x eqn:?; cbn [bind] in S; try discriminate S
      end; try discriminate S. rewrite andb_false_r in *. cbn in *. discriminate. }
    split; [|split; [exact N|exact NF]]. cbn. unfold rt_pub. destruct pc'; try (destruct (NF _ eq_refl)); destruct (rt c); try (destruct (R _ eq_refl)); first [exact P | reflexivity].
  - assert (NK := N k). destruct (thr c k) as [|pr|srv pr|srv cl kk|srv cl kk|srv cl kk|srv cl kk|srv cl kk|srv cl kk|srv cl kk|srv cl kk|srv cl kk|srv kk|srv kk]; cbn [th_step] in E; try discriminate NK.
    all: try (rewrite P in E; discriminate E).
    all: repeat match goal with E : (match ?x with _ => _ end) = Some _ |- _ => destruct x eqn:?; try discriminate E end.
    all: try discriminate E; injection E as E; subst c'.
    all: repeat match goal with |- context [if ?x then _ else _] => destruct x end.
    all: split; [exact P|split; [|exact R]]; cbn; intros k'; apply SET; first [reflexivity | destruct cl; reflexivity | destruct srv; reflexivity].
  - destruct (thr c k); try discriminate. injection E as <-. split; [exact P|split; [|exact R]]. cbn. intros k'. apply SET. destruct srv; reflexivity.
  - rewrite P in E. discriminate.
  - rewrite P in E. discriminate.
  - injection E as <-. split; [exact P|split; [exact N|exact R]].
  - injection E as <-. split; [exact P|split; [exact N|exact R]].
Qed.

Lemma leaked_steps {W} (H : hooks W) j c ls c' : steps H c ls c' -> leaked j c -> leaked j c'.
Proof. induction 1 as [|c ls c1 l c2 S IH E]; intros L; [exact L|]. eapply leaked_forever; [exact (IH L)|exact E]. Qed.

(** After ros::ok() turns false a call can hang for ever.  The realtime thread is inside a cycle on the old list when ros goes
    down; loadController("d") of thread 0 answers false although "d" is in the list, and leaves the statistics message locked.
    The unloadController call of thread 1 then never returns, whatever is scheduled, and no statistics are published again. *)
Definition is_false (a : answer) : bool := match a with Returned false => true | _ => false end.
Definition leak_run : list (label exW) :=
  rts 5 ++ [LStart 0 false (PCall (CLoad exEnv "d") (seen is_false)); LStart 1 false (unload_service "c")] ++ ths 0 7 ++ [LRosDown] ++ ths 0 3 ++ rts 12 ++ ths 1 4.
Theorem C86_shutdown_hangs : exists m ls c, reachable exH m /\ please m = false /\ steps exH (quiet m) ls c /\
  In LRosDown ls /\
  (** thread 0 got the answer false (its program replaces the loader only then) *)
  In EvNewLoader (trace (mg c)) /\ ~ In EvNewLoader (trace m) /\ thr c 0 = TIdle /\ In "d" (loaded_names (mg c)) /\ ~ In "d" (loaded_names m) /\
  forall ls' c', steps exH c ls' c' -> thr c' 1 = thr c 1 /\ bstep exH (LTh 1) c' = None /\ in_call (thr c' 1) = true /\
    ctl_lock c' = Some 1 /\ forall t, rt c' <> RFill t.
Proof.
  exists ex1, leak_run, (ran leak_run ex1). split; [exact ex1_reachable|]. split; [exact ex1_idle|].
  assert (S0 : steps exH (quiet ex1) leak_run (ran leak_run ex1)) by (apply ran_steps; vm_compute; reflexivity).
  split; [exact S0|]. split; [apply in_or_app; right; cbn; tauto|].
  assert (T : exists cl kk, thr (ran leak_run ex1) 1 = TPub false cl kk) by (vm_compute; eauto).
  assert (C : ctl_lock (ran leak_run ex1) = Some 1) by (vm_compute; reflexivity).
  assert (L : leaked 0 (ran leak_run ex1)).
  { split; [vm_compute; reflexivity|]. split; [intros [|[|k]]; vm_compute; reflexivity|]. intros t. vm_compute. discriminate. }
  split; [vm_compute; tauto|]. split; [vm_compute; intuition discriminate|]. split; [vm_compute; reflexivity|]. split; [vm_compute; tauto|]. split; [vm_compute; intuition discriminate|].
  destruct T as (cl & kk & T).
  assert (OUT : forall k, k <> 1 -> in_call (thr (ran leak_run ex1) k) = false) by (intros [|[|k]] NE; [vm_compute; reflexivity|destruct (NE eq_refl)|vm_compute; reflexivity]).
  pose (stuck (c0 : config exW) := thr c0 1 = TPub false cl kk /\ ctl_lock c0 = Some 1 /\ forall k, k <> 1 -> in_call (thr c0 k) = false).
  assert (X : forall c0 ls' c', steps exH c0 ls' c' -> leaked 0 c0 -> stuck c0 -> stuck c').
  { clear. subst stuck. cbv beta. induction 1 as [|c0 ls' c1 l c2 S IH E]; intros L T; [exact T|]. specialize (IH L T) as (T1 & C1 & O1). pose proof (leaked_steps _ _ _ _ _ S L) as (P & _).
    destruct l as [a b|k|k srv pr| | | |f]; cbn [bstep] in E.
    - injection E as E. unfold do_rt in E. destruct (rt_step exH _ a b (rt c1) (mg c1)) as [[m' pc']| | |]; cbn [bind] in E; try discriminate. injection E as <-. auto.
    - destruct (Nat.eq_dec k 1) as [->|NE]; [rewrite T1 in E; cbn [th_step] in E; rewrite P in E; discriminate|].
      assert (KK : forall t (c3 : config exW), thr c3 = thr c1 -> ctl_lock c3 = ctl_lock c1 -> in_call t = false -> thr (with_thr k t c3) 1 = TPub false cl kk /\ ctl_lock (with_thr k t c3) = Some 1 /\ forall k', k' <> 1 -> in_call (thr (with_thr k t c3) k') = false).
      { intros t c3 EQ EC IT. cbn. rewrite EQ, set_thr_other by (intros Q; apply NE; symmetry; exact Q). split; [exact T1|]. split; [congruence|].
        intros k' N'. unfold set_thr. destruct (Nat.eqb k' k); [exact IT|apply O1, N']. }
      pose proof (O1 k NE) as IK.
      destruct (thr c1 k) as [|pr|srv pr|srv cl0 k0|srv cl0 k0|srv cl0 k0|srv cl0 k0|srv cl0 k0|srv cl0 k0|srv cl0 k0|srv cl0 k0|srv cl0 k0|srv k0|srv k0]; cbn [th_step in_call] in E, IK; try discriminate IK.
      all: try rewrite C1 in E.
      all: repeat match goal with E : (match ?x with _ => _ end) = Some _ |- _ => destruct x eqn:?; try discriminate E end.
      all: try discriminate E; injection E as E; subst c2.
      all: repeat match goal with |- context [if ?x then _ else _] => destruct x end.
      all: try (apply KK; reflexivity).
    - assert (NE : k <> 1) by (intros ->; rewrite T1 in E; discriminate).
      destruct (thr c1 k); try discriminate. injection E as <-. cbn. rewrite set_thr_other by (intros Q; apply NE; symmetry; exact Q).
      split; [exact T1|]. split; [exact C1|]. intros k' N'. unfold set_thr. destruct (Nat.eqb k' k); [destruct srv; reflexivity|apply O1, N'].
    - rewrite P in E; discriminate.
    - rewrite P in E; discriminate.
    - injection E as <-. auto.
    - injection E as <-. auto. }
  intros ls' c' S. destruct (X _ _ _ S L (conj T (conj C OUT))) as (T' & C' & _). destruct (leaked_steps _ _ _ _ _ S L) as (P & _ & NF).
  split; [congruence|]. split; [cbn [bstep]; rewrite T'; cbn [th_step]; rewrite P; reflexivity|]. split; [rewrite T'; reflexivity|]. split; [exact C'|exact NF].
Qed.
