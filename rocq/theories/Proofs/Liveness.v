(** Level B: every client finishes in every fair infinite execution. *)
From Coq Require Import List String Arith Bool ZArith Lia Classical.
From Verif.Model Require Import Base Scheduler Controller Manager ManagerConc.
From Verif.Spec Require Import SchedulerSpec ManagerSpec ConcSpec LivenessSpec LinSpec.
From Verif.Proofs Require Import SchedulerProofs ManagerProofs ManagerInv ManagerOps ConcBase ConcInv ConcTrace ConcHist ConcCycle ConcProgress.
Import ListNotations.

Section Live.
Context {W : Type} (H : hooks W).
Notation mgr := (mgr W).
Notation config := (config W).
Hypothesis Hpm : (0 < h_per_mech H)%Z.
Hypothesis Hpj : (0 < h_per_js H)%Z.
Variables (exe : nat -> config) (lab : nat -> label W).
Hypothesis EN : endless H exe lab.
Hypothesis FA : fair H exe lab.

Lemma run_live n : live H (exe n).
Proof.
  induction n as [|n IH]; [apply EN|].
  apply (live_step H (exe n) (lab n) (exe (S n)) IH (en_step H _ _ EN n)); [intros a b E; exact (en_first H _ _ EN n a b E)|apply EN].
Qed.
Lemma run_inv n : InvB (exe n).
Proof. apply (live_inv H Hpm Hpj), run_live. Qed.

Lemma step_kind n : (exists a b, lab n = LRt a b /\ do_rt H a b (exe n) = Ok (exe (S n))) \/
  (client (exe n) (exe (S n)) /\ ~ is_rt_label (lab n)).
Proof.
  destruct (client_or_rt H Hpm Hpj (lab n) (exe n) (exe (S n)) (run_live n) (run_live (S n)) (en_step H _ _ EN n)) as [X|(C & E)]; [left; exact X|right].
  split; [exact C|]. unfold is_rt_step in E. destruct (lab n); try discriminate; intros X; exact X.
Qed.

(* ------------------------------------------------------------------ client threads *)
Lemma keep k n : thr (exe n) k <> TIdle -> lab n <> LTh k -> thr (exe (S n)) k = thr (exe n) k.
Proof.
  intros NI NL. pose proof (en_step H _ _ EN n) as E. destruct (lab n) as [a b|j|j srv pr| | | |f] eqn:L; cbn [bstep] in E.
  - unfold do_rt in E. destruct (rt_step H _ a b (rt (exe n)) (mg (exe n))) as [[m' pc']| | |]; cbn [bind] in E; try discriminate.
    injection E as E. rewrite <- E. reflexivity.
  - assert (NE : k <> j) by congruence. pose proof (ib_ctl _ (run_inv n)) as IC.
    revert E. generalize (exe (S n)). intros c' E.
    destruct (thr (exe n) j) as [|pr|srv pr|srv cl kk|srv cl kk|srv cl kk|srv cl kk|srv cl kk|srv cl kk|srv cl kk|srv cl kk|srv cl kk|srv kk|srv kk]; cbn [th_step] in E.
    all: repeat match goal with E : (match ?x with _ => _ end) = Some _ |- _ => destruct x eqn:?; try discriminate E end.
    all: try discriminate E; injection E as E; subst c'.
    all: repeat match goal with |- context [if ?x then _ else _] => destruct x end.
    all: cbn [thr with_thr with_mg with_srv with_ctl with_pub ret]; rewrite ?set_thr_other by exact NE; try reflexivity.
  - assert (NE : k <> j). { intros ->. destruct (thr (exe n) j); congruence. }
    destruct (thr (exe n) j); try discriminate E. injection E as E. rewrite <- E. cbn. rewrite set_thr_other by exact NE. reflexivity.
  - destruct (pub_lock (exe n)); try discriminate E. injection E as E. rewrite <- E. reflexivity.
  - destruct (pub_lock (exe n)) as [[| |]|]; try discriminate E. injection E as E. rewrite <- E. reflexivity.
  - injection E as E. rewrite <- E. reflexivity.
  - injection E as E. rewrite <- E. reflexivity.
Qed.

(** A thread at [t] which is again and again able to step as long as it stays there does step. *)
Lemma taken k n t : thr (exe n) k = t -> t <> TIdle ->
  ((forall m, n <= m -> thr (exe m) k = t) -> forall n', n <= n' -> exists m, n' <= m /\ th_step H k t (exe m) <> None) ->
  exists m, n <= m /\ thr (exe m) k = t /\ lab m = LTh k.
Proof.
  intros E NI EN'. apply NNPP. intros NO.
  assert (ST : forall m, n <= m -> thr (exe m) k = t).
  { induction 1 as [|m LE IH]; [exact E|]. rewrite keep; [exact IH|rewrite IH; exact NI|]. intros X. apply NO. exists m. auto. }
  destruct (fr_thread H _ _ FA k) with (n := n) as (m & LE & L).
  { intros n0. destruct (EN' ST (Nat.max n n0) ltac:(lia)) as (m & LE & S). exists m. split; [lia|]. cbn [bstep]. rewrite ST by lia. exact S. }
  apply NO. exists m. auto.
Qed.
Lemma taken_now k n t : thr (exe n) k = t -> t <> TIdle -> (forall m, thr (exe m) k = t -> th_step H k t (exe m) <> None) ->
  exists m, n <= m /\ thr (exe m) k = t /\ th_step H k t (exe m) = Some (Ok (exe (S m))).
Proof.
  intros E NI A. destruct (taken k n t E NI) as (m & LE & T & L).
  { intros ST n' LE. exists n'. split; [lia|]. apply A, ST, LE. }
  exists m. split; [exact LE|]. split; [exact T|]. pose proof (en_step H _ _ EN m) as S. rewrite L in S. cbn [bstep] in S. rewrite T in S. exact S.
Qed.

(* ------------------------------------------------------------------ the realtime thread *)
Lemma rt_stays n : ~ is_rt_label (lab n) -> rt (exe (S n)) = rt (exe n).
Proof. intros NR. destruct (step_kind n) as [(a & b & L & _)|(C & _)]; [rewrite L in NR; destruct (NR I)|apply C]. Qed.

(** the next step of the realtime thread, before which it does not move *)
Lemma next_rt n : exists m a b, n <= m /\ lab m = LRt a b /\ do_rt H a b (exe m) = Ok (exe (S m)) /\ rt (exe m) = rt (exe n) /\
  forall i, n <= i < m -> client (exe i) (exe (S i)) /\ ~ is_rt_label (lab i).
Proof.
  destruct (fr_rt H _ _ FA n) as (M & LE & L).
  assert (X : forall d n, n + d = M -> exists m a b, n <= m /\ lab m = LRt a b /\ do_rt H a b (exe m) = Ok (exe (S m)) /\ rt (exe m) = rt (exe n) /\
     forall i, n <= i < m -> client (exe i) (exe (S i)) /\ ~ is_rt_label (lab i)).
  { clear n LE. induction d as [|d IH]; intros n E.
    - replace n with M by lia. destruct (step_kind M) as [(a & b & L' & E')|(_ & X)]; [|destruct (X L)]. exists M, a, b.
      split; [lia|]. split; [exact L'|]. split; [exact E'|]. split; [reflexivity|]. intros i Hi. lia.
    - destruct (step_kind n) as [(a & b & L' & E')|(C & NR)].
      + exists n, a, b. split; [lia|]. split; [exact L'|]. split; [exact E'|]. split; [reflexivity|]. intros i Hi. lia.
      + destruct (IH (S n) ltac:(lia)) as (m & a & b & LE & L' & E' & R & A). exists m, a, b. split; [lia|]. split; [exact L'|]. split; [exact E'|].
        split; [rewrite R; apply C|]. intros i Hi. destruct (Nat.eq_dec i n) as [->|]; [auto|apply A; lia]. }
  exact (X (M - n) n ltac:(lia)).
Qed.

Lemma client_left1 (c c' : config) : InvB c -> client c c' -> left1 c' = left1 c.
Proof.
  intros I Cl. destruct Cl as [Er Eu Epv En Eh El Es Ec Eev].
  assert (Eul : used_len (mg c') = used_len (mg c)).
  { unfold used_len. rewrite Eu. destruct (used (mg c)) as [b|] eqn:Hu; auto. now rewrite (proj1 (El b eq_refl)). }
  unfold left1. now rewrite Er, Eul.
Qed.

Definition busy (pc : rpc) : Prop := match pc with RIdle | RGot _ => False | RStop _ | RStart _ | REnd => False | _ => True end.

Lemma left1_le (c : config) : left1 c <= 7 + 3 * used_len (mg c).
Proof. unfold left1. destruct (rt c); lia. Qed.

(** first part of the cycle: it ends, or reaches the switch part *)
Lemma first_part : forall v n, busy (rt (exe n)) -> left1 (exe n) <= v ->
  exists m, n <= m /\ (rt (exe m) = RIdle \/ (exists ps, rt (exe m) = RStop ps)).
Proof.
  induction v as [v IH] using lt_wf_ind. intros n B LE.
  destruct (next_rt n) as (m & a & b & LM & L & E & R & A).
  assert (L1 : left1 (exe m) = left1 (exe n)).
  { clear - A LM EN Hpm Hpj. revert A. induction LM as [|m LM IH]; intros A; [reflexivity|].
    destruct (A m ltac:(lia)) as (C & _). rewrite (client_left1 _ _ (run_inv m) C). apply IH. intros i Hi. apply A. lia. }
  destruct (classic (rt (exe (S m)) = RIdle)) as [Z|NZ]; [exists (S m); split; [lia|]; left; exact Z|].
  assert (BD : cycle_bound (used_len (mg (exe m))) (7 + 3 * used_len (mg (exe m)) - left1 (exe m)) (exe m)).
  { split; [reflexivity|]. pose proof (left1_le (exe m)). rewrite R. unfold busy in B. destruct (rt (exe n)); try (destruct B); lia. }
  pose proof (bound_rt H Hpm Hpj _ _ a b _ _ (run_inv m) (en_first H _ _ EN m a b L) E NZ BD) as (_ & BB).
  pose proof (left1_le (exe m)) as LL.
  destruct (do_rt_desc H Hpm Hpj a b _ _ (run_inv m) (en_first H _ _ EN m a b L) E) as (evs & T & D & _).
  unfold rt_desc in D.
  assert (K : busy (rt (exe (S m))) -> exists m0, n <= m0 /\ (rt (exe m0) = RIdle \/ (exists ps, rt (exe m0) = RStop ps))).
  { intros B'. destruct (IH (left1 (exe (S m)))) with (n := S m) as (m0 & LE0 & Q); auto.
    - unfold busy in B'. destruct (rt (exe (S m))); try (destruct B'); lia.
    - exists m0. split; [lia|exact Q]. }
  rewrite R in D. unfold busy in B. destruct (rt (exe n)) as [|x| |i|i|i| | |t| | |ps|ps|] eqn:RN; try (destruct B; fail).
  - destruct D as (_ & _ & _ & [[D _]| D]); apply K; rewrite D; exact I.
  - destruct D as (_ & b0 & _ & [(e & _ & _ & D)|(_ & _ & D & _)]); [destruct (runningb _ _); destruct D as (_ & D & _)|]; apply K; rewrite D; exact I.
  - destruct D as (_ & b0 & e & _ & _ & _ & _ & D & _). apply K; rewrite D; exact I.
  - destruct D as (_ & _ & b0 & _ & [(e & _ & _ & D & _)|(_ & _ & D)]); apply K; rewrite D; exact I.
  - destruct D as (_ & _ & _ & D). apply K; rewrite D; exact I.
  - destruct D as (_ & _ & _ & [D|(t & D)]); apply K; rewrite D; exact I.
  - destruct D as (_ & _ & D & _). apply K; rewrite D; exact I.
  - destruct D as (_ & _ & D & _). apply K; rewrite D; exact I.
  - destruct D as (_ & _ & D). destruct (please (mg (exe m))); [|congruence]. exists (S m). split; [lia|]. right. eauto.
Qed.

Lemma rt_next_desc n : exists m evs, n <= m /\ rt (exe m) = rt (exe n) /\ rt_desc (exe m) (mg (exe (S m))) (rt (exe (S m))) evs.
Proof.
  destruct (next_rt n) as (m & a & b & LM & L & E & R & _).
  destruct (do_rt_desc H Hpm Hpj a b _ _ (run_inv m) (en_first H _ _ EN m a b L) E) as (evs & T & D & _). exists m, evs. auto.
Qed.

Lemma end_part n : rt (exe n) = REnd -> exists m, n <= m /\ rt (exe m) = RIdle.
Proof.
  intros E. destruct (rt_next_desc n) as (m & evs & LM & R & D). unfold rt_desc in D. rewrite R, E in D. exists (S m). split; [lia|apply D].
Qed.
Lemma start_part : forall ps n, rt (exe n) = RStart ps -> exists m, n <= m /\ rt (exe m) = RIdle.
Proof.
  induction ps as [|p ps IH]; intros n E; destruct (rt_next_desc n) as (m & evs & LM & R & D); unfold rt_desc in D; rewrite R, E in D.
  - destruct D as (_ & _ & D). destruct (end_part (S m) D) as (m' & LE & Q). exists m'. split; [lia|exact Q].
  - destruct D as (_ & _ & _ & D & _). destruct (IH (S m) D) as (m' & LE & Q). exists m'. split; [lia|exact Q].
Qed.
Lemma stop_part : forall ps n, rt (exe n) = RStop ps -> exists m, n <= m /\ rt (exe m) = RIdle.
Proof.
  induction ps as [|p ps IH]; intros n E; destruct (rt_next_desc n) as (m & evs & LM & R & D); unfold rt_desc in D; rewrite R, E in D.
  - destruct D as (_ & _ & D). destruct (start_part _ (S m) D) as (m' & LE & Q). exists m'. split; [lia|exact Q].
  - destruct D as (_ & _ & _ & D & _). destruct (IH (S m) D) as (m' & LE & Q). exists m'. split; [lia|exact Q].
Qed.

(** cycles end again and again *)
Lemma idle_again : always_again (fun n => rt (exe n) = RIdle).
Proof.
  intros n.
  assert (B : forall n, busy (rt (exe n)) -> exists m, n <= m /\ rt (exe m) = RIdle).
  { intros n1 B. destruct (first_part _ n1 B (le_n _)) as (m & LE & [Q|(ps & Q)]); [eauto|].
    destruct (stop_part ps m Q) as (m' & LE' & Q'). exists m'. split; [lia|exact Q']. }
  assert (C : forall n, rt (exe n) = RBegin -> exists m, n <= m /\ rt (exe m) = RIdle) by (intros n1 E; apply B; rewrite E; exact I).
  destruct (rt (exe n)) as [|x| |i|i|i| | |t| | |ps|ps|] eqn:E; try (apply B; rewrite E; exact I).
  - exists n. auto.
  - destruct (rt_next_desc n) as (m & evs & LM & R & D). unfold rt_desc in D. rewrite R, E in D. destruct D as (_ & D & _).
    destruct (C (S m) D) as (m' & LE & Q). exists m'. split; [lia|exact Q].
  - eapply stop_part; eauto.
  - eapply start_part; eauto.
  - eapply end_part; eauto.
Qed.

(** a step of the realtime thread from a given program counter, again and again *)
Lemma takes_again : always_again (fun n => takes_list (exe n) (lab n) (exe (S n)) = true).
Proof.
  intros n. destruct (idle_again n) as (m & LE & Q). destruct (rt_next_desc m) as (m1 & evs & LM & R & D). unfold rt_desc in D. rewrite R, Q in D. destruct D as (_ & D & _).
  destruct (next_rt (S m1)) as (m2 & a & b & LM2 & L2 & _ & R2 & _). exists m2. split; [lia|]. unfold takes_list. rewrite L2, R2, D. reflexivity.
Qed.
Lemma ends_again : always_again (fun n => ends_cycle (exe n) (lab n) (exe (S n)) = true).
Proof.
  intros n. destruct (idle_again n) as (m & LE & Q). destruct (rt_next_desc m) as (m1 & evs & LM & R & D). unfold rt_desc in D. rewrite R, Q in D. destruct D as (_ & D & _).
  destruct (idle_again (S m1)) as (m2 & LE2 & Q2).
  assert (X : forall m2, S m1 <= m2 -> rt (exe m2) = RIdle -> exists i, S m1 <= i /\ ends_cycle (exe i) (lab i) (exe (S i)) = true).
  { clear m2 LE2 Q2. induction 1 as [|m2 LE2 IH]; intros Q2; [congruence|].
    destruct (step_kind m2) as [(a & b & L & _)|(C & _)].
    - exists m2. split; [lia|]. unfold ends_cycle. rewrite L, Q2. reflexivity.
    - apply IH. rewrite <- (cl_rt _ _ C). exact Q2. }
  destruct (X m2 LE2 Q2) as (i & LI & EI). exists i. split; [lia|exact EI].
Qed.

(* ------------------------------------------------------------------ waiting *)
Lemma segment_of (P : config -> Prop) Q n m : n <= m -> (forall i, n < i <= m -> P (exe i)) -> exists c, segment H P Q (exe n) c (exe m).
Proof.
  induction 1 as [|m LE IH]; intros A; [exists 0; constructor|]. destruct IH as (c & S); [intros i Hi; apply A; lia|].
  eexists. eapply seg_snoc; [exact S|apply EN|intros a b E; exact (en_first H _ _ EN m a b E)|apply A; lia].
Qed.
Lemma segment_extend (P : config -> Prop) Q n m m' c : segment H P Q (exe n) c (exe m) -> m <= m' -> (forall i, m < i <= m' -> P (exe i)) ->
  exists c', c <= c' /\ segment H P Q (exe n) c' (exe m').
Proof.
  intros S. induction 1 as [|m' LE IH]; intros A; [exists c; auto|]. destruct IH as (c' & LC & S'); [intros i Hi; apply A; lia|].
  eexists. split; [|eapply seg_snoc; [exact S'|apply EN|intros a b E; exact (en_first H _ _ EN m' a b E)|apply A; lia]]. lia.
Qed.
Lemma segment_count (P : config -> Prop) Q n : (forall m, n <= m -> P (exe m)) -> always_again (fun i => Q (exe i) (lab i) (exe (S i)) = true) ->
  forall v, exists m c, n <= m /\ v <= c /\ segment H P Q (exe n) c (exe m).
Proof.
  intros A QA v. induction v as [|v (m & c & LE & LC & SG)]; [exists n, 0; repeat split; auto; constructor|].
  destruct (QA m) as (i & LI & QI). destruct (segment_extend P Q n m i c SG LI) as (c' & LC' & S'); [intros j Hj; apply A; lia|].
  exists (S i), (c' + 1). split; [lia|]. split; [lia|].
  pose proof (seg_snoc H P Q (exe n) c' (exe i) (lab i) (exe (Datatypes.S i)) S' (en_step H _ _ EN i)) as X. rewrite QI in X.
  apply X; [intros a b E; exact (en_first H _ _ EN i a b E)|apply A; lia].
Qed.

Definition wait2 srv cl kk (t : tstate) : Prop := t = TWait2 srv cl kk \/ t = TWait2b srv cl kk.

Lemma wait2_ends k n srv cl kk : thr (exe n) k = TWait2 srv cl kk -> exists m, n <= m /\ thr (exe m) k = TClear srv cl kk.
Proof.
  intros E. apply NNPP. intros NO.
  assert (ST : forall m, n <= m -> wait2 srv cl kk (thr (exe m) k)).
  { induction 1 as [|m LE IH]; [left; exact E|].
    assert (NI : thr (exe m) k <> TIdle) by (destruct IH as [-> | ->]; discriminate).
    destruct (classic (lab m = LTh k)) as [L|NL]; [|rewrite keep by auto; exact IH].
    pose proof (en_step H _ _ EN m) as S. rewrite L in S. cbn [bstep] in S.
    destruct IH as [T|T]; rewrite T in S; cbn [th_step] in S; injection S as S; pose proof (f_equal (fun c => thr c k) S) as S'.
    - cbn in S'. rewrite set_thr_same in S'. destruct (_ && _); [right; auto|]. destruct NO. exists (Datatypes.S m). split; [lia|auto].
    - rewrite (en_ros H _ _ EN m) in S'. cbn in S'. rewrite set_thr_same in S'. left; auto. }
  assert (WT : forall m, n <= m -> waits_for_list k (exe m)).
  { intros m LE. unfold waits_for_list. destruct (ST m LE) as [-> | ->]; exact I. }
  destruct (segment_count (waits_for_list k) takes_list n WT takes_again 2) as (m & c & LE & LC & SG).
  assert (FU : forall i, m <= i -> former_in_use (mg (exe i)) = false).
  { intros i LI. destruct (segment_extend _ _ n m i c SG LI) as (c' & LC' & S'); [intros j Hj; apply WT; lia|].
    apply (list_handover H Hpm Hpj k (exe n) c' (exe i) (run_live n) (WT n (le_n _)) S' (en_ros H _ _ EN i)). lia. }
  assert (X : forall i, m <= i -> thr (exe i) k = TWait2 srv cl kk -> False).
  { intros i LI T. destruct (taken_now k i _ T) as (j & LJ & TJ & SJ); [discriminate|intros; cbn [th_step]; discriminate|].
    cbn [th_step] in SJ. rewrite (FU j ltac:(lia)), andb_false_r in SJ. injection SJ as SJ. pose proof (f_equal (fun c => thr c k) SJ) as S'. cbn in S'. rewrite set_thr_same in S'.
    apply NO. exists (S j). split; [lia|auto]. }
  destruct (ST m LE) as [T|T]; [exact (X m (le_n _) T)|].
  destruct (taken_now k m _ T) as (j & LJ & TJ & SJ); [discriminate|intros; cbn [th_step]; discriminate|].
  cbn [th_step] in SJ. rewrite (en_ros H _ _ EN j) in SJ. injection SJ as SJ. pose proof (f_equal (fun c => thr c k) SJ) as S'. cbn in S'. rewrite set_thr_same in S'.
  apply (X (S j)); [lia|auto].
Qed.

Definition waitsw srv kk (t : tstate) : Prop := t = TSw srv kk \/ t = TSwb srv kk.

(** a call returns: thread [k] goes on with the answer and controllers_lock_ is free *)
Definition returns (k n : nat) (srv : bool) (kk : answer -> prog) : Prop :=
  exists m a, n <= m /\ thr (exe m) k = TProg srv (kk a) /\ ctl_lock (exe m) = None.

Lemma returns_later k n n' srv kk : n <= n' -> returns k n' srv kk -> returns k n srv kk.
Proof. intros LE (m & a & L & Q). exists m, a. split; [lia|exact Q]. Qed.

Lemma ret_returns k n srv kk a c : exe (S n) = ret k srv (kk a) c -> returns k n srv kk.
Proof. intros E. exists (S n), a. split; [lia|]. rewrite E. cbn. rewrite set_thr_same. auto. Qed.

Lemma sw_ends k n srv kk : thr (exe n) k = TSw srv kk -> returns k n srv kk.
Proof.
  intros E. apply NNPP. intros NO.
  assert (ST : forall m, n <= m -> waitsw srv kk (thr (exe m) k)).
  { induction 1 as [|m LE IH]; [left; exact E|].
    assert (NI : thr (exe m) k <> TIdle) by (destruct IH as [-> | ->]; discriminate).
    destruct (classic (lab m = LTh k)) as [L|NL]; [|rewrite keep by auto; exact IH].
    pose proof (en_step H _ _ EN m) as S. rewrite L in S. cbn [bstep] in S.
    destruct IH as [T|T]; rewrite T in S; cbn [th_step] in S; injection S as S; pose proof (f_equal (fun c => thr c k) S) as S'.
    - destruct (_ && _); [cbn in S'; rewrite set_thr_same in S'; right; auto|]. destruct NO. apply (returns_later k n m); [exact LE|].
      eapply ret_returns. symmetry. exact S.
    - rewrite (en_ros H _ _ EN m) in S'. cbn in S'. rewrite set_thr_same in S'. left; auto. }
  assert (WT : forall m, n <= m -> waits_for_switch k (exe m)).
  { intros m LE. unfold waits_for_switch. destruct (ST m LE) as [-> | ->]; exact I. }
  destruct (segment_count (waits_for_switch k) ends_cycle n WT ends_again 1) as (m & c & LE & LC & SG).
  assert (FU : forall i, m <= i -> please (mg (exe i)) = false).
  { intros i LI. destruct (segment_extend _ _ n m i c SG LI) as (c' & LC' & S'); [intros j Hj; apply WT; lia|].
    apply (switch_wait H Hpm Hpj k (exe n) c' (exe i) (run_live n) (WT n (le_n _)) S' (en_ros H _ _ EN i)). lia. }
  assert (X : forall i, m <= i -> thr (exe i) k = TSw srv kk -> False).
  { intros i LI T. destruct (taken_now k i _ T) as (j & LJ & TJ & SJ); [discriminate|intros; cbn [th_step]; discriminate|].
    cbn [th_step] in SJ. rewrite (FU j ltac:(lia)), andb_false_r in SJ. injection SJ as SJ.
    apply NO. apply (returns_later k n j); [lia|]. eapply ret_returns. symmetry. exact SJ. }
  destruct (ST m LE) as [T|T]; [exact (X m (le_n _) T)|].
  destruct (taken_now k m _ T) as (j & LJ & TJ & SJ); [discriminate|intros; cbn [th_step]; discriminate|].
  cbn [th_step] in SJ. rewrite (en_ros H _ _ EN j) in SJ. injection SJ as SJ. pose proof (f_equal (fun c => thr c k) SJ) as S'. cbn in S'. rewrite set_thr_same in S'.
  apply (X (S j)); [lia|auto].
Qed.

(** the message is given back again and again while [k] waits for it *)
Lemma pub_again k n srv cl kk : (forall m, n <= m -> thr (exe m) k = TPub srv cl kk) -> forall n', n <= n' -> exists m, n' <= m /\ pub_lock (exe m) = None.
Proof.
  intros ST n' LE. destruct (pub_lock (exe n')) as [[|j|]|] eqn:P.
  - destruct (proj2 (ib_fill _ (run_inv n')) P) as (t & R).
    destruct (next_rt n') as (m & a & b & LM & L & E & R' & _). rewrite R in R'.
    destruct (do_rt_desc H Hpm Hpj a b _ _ (run_inv m) (en_first H _ _ EN m a b L) E) as (evs & T & D & _). unfold rt_desc in D. rewrite R' in D. destruct D as (_ & _ & D & _).
    exists (S m). split; [lia|]. unfold do_rt in E. destruct (rt_step H _ a b (rt (exe m)) (mg (exe m))) as [[m' pc']| | |]; cbn [bind] in E; try discriminate.
    injection E as E. rewrite <- E in D |- *. cbn in D |- *. rewrite R', D. reflexivity.
  - exfalso. pose proof (proj2 (ib_pub _ (run_inv n') j) P) as X.
    assert (C : crit (thr (exe n') j) = true) by (destruct (thr (exe n') j); try discriminate; reflexivity).
    apply (ib_ctl _ (run_inv n')) in C. assert (K : ctl_lock (exe n') = Some k) by (apply (ib_ctl _ (run_inv n')); rewrite (ST n' LE); reflexivity).
    rewrite C in K. injection K as ->. rewrite (ST n' LE) in X. discriminate.
  - destruct (fr_pub H _ _ FA n' P) as (m & LM & L). exists (S m). split; [lia|]. pose proof (en_step H _ _ EN m) as E. rewrite L in E. cbn [bstep] in E.
    destruct (pub_lock (exe m)) as [[| |]|]; try discriminate. injection E as E. rewrite <- E. reflexivity.
  - exists n'. auto.
Qed.

Lemma clear_ends k n srv cl kk : thr (exe n) k = TClear srv cl kk -> returns k n srv kk.
Proof.
  intros T. destruct (taken_now k n _ T) as (j & LJ & TJ & SJ); [discriminate|intros; cbn [th_step]; discriminate|].
  cbn [th_step] in SJ. injection SJ as SJ. apply (returns_later k n j); [exact LJ|]. eapply ret_returns. symmetry. exact SJ.
Qed.
Lemma flip_ends k n srv cl kk : thr (exe n) k = TFlip srv cl kk -> returns k n srv kk.
Proof.
  intros T. destruct (taken_now k n _ T) as (j & LJ & TJ & SJ); [discriminate|intros; cbn [th_step]; discriminate|].
  cbn [th_step] in SJ. injection SJ as SJ. pose proof (f_equal (fun c => thr c k) SJ) as S'. cbn in S'. rewrite set_thr_same in S'. symmetry in S'.
  destruct (wait2_ends k (S j) _ _ _ S') as (m & LM & TM). apply (returns_later k n m); [lia|]. eapply clear_ends; eauto.
Qed.
Lemma pub_ends k n srv cl kk : thr (exe n) k = TPub srv cl kk -> returns k n srv kk.
Proof.
  intros T. destruct (taken k n _ T) as (j & LJ & TJ & L); [discriminate| |].
  { intros ST n' LE. destruct (pub_again k n srv cl kk ST n' LE) as (m & LM & P). exists m. split; [exact LM|]. cbn [th_step]. rewrite P. discriminate. }
  pose proof (en_step H _ _ EN j) as S. rewrite L in S. cbn [bstep] in S. rewrite TJ in S. cbn [th_step] in S. destruct (pub_lock (exe j)); [discriminate|].
  injection S as S. pose proof (f_equal (fun c => thr c k) S) as S'. cbn in S'. rewrite set_thr_same in S'. symmetry in S'.
  apply (returns_later k n (Datatypes.S j)); [lia|]. eapply flip_ends; eauto.
Qed.
Lemma body_ends k n srv cl kk : thr (exe n) k = TBody srv cl kk -> returns k n srv kk.
Proof.
  intros T. destruct (taken_now k n _ T) as (j & LJ & TJ & SJ); [discriminate| |].
  { intros m _. cbn [th_step]. destruct (body H cl (mg (exe m))); try discriminate. destruct cl; discriminate. }
  cbn [th_step] in SJ. apply (returns_later k n j); [exact LJ|]. destruct (body H cl (mg (exe j))) as [m'|m'|m'|].
  - injection SJ as SJ. eapply ret_returns. symmetry. exact SJ.
  - assert (X : thr (exe (S j)) k = TSw srv kk \/ thr (exe (S j)) k = TPub srv cl kk).
    { destruct cl; injection SJ as SJ; rewrite <- SJ; cbn; rewrite set_thr_same; auto. }
    apply (returns_later k j (S j)); [lia|]. destruct X as [X|X]; [eapply sw_ends|eapply pub_ends]; eauto.
  - injection SJ as SJ. eapply ret_returns. symmetry. exact SJ.
  - discriminate.
Qed.
Lemma wait1_ends k n srv cl kk : thr (exe n) k = TWait1 srv cl kk -> returns k n srv kk.
Proof.
  intros T. destruct (taken_now k n _ T) as (j & LJ & TJ & SJ); [discriminate|intros; cbn [th_step]; discriminate|].
  assert (X : hold_ok (mg (exe j)) (TWait1 srv cl kk)). { rewrite <- TJ, <- (holder_eq (exe j) k (run_inv j)); [apply (run_inv j)|now rewrite TJ]. }
  destruct X as (_ & Hu & _). cbn [th_step] in SJ. rewrite (flip_used_false _ Hu), andb_false_r in SJ. injection SJ as SJ.
  pose proof (f_equal (fun c => thr c k) SJ) as S'. cbn in S'. rewrite set_thr_same in S'. symmetry in S'.
  apply (returns_later k n (S j)); [lia|]. eapply body_ends; eauto.
Qed.

(** every call past its lock returns *)
Lemma call_ends k n kk : in_call (thr (exe n) k) = true -> cont (thr (exe n) k) = Some kk -> returns k n (insrv (thr (exe n) k)) kk.
Proof.
  intros IC CT. destruct (thr (exe n) k) as [|pr|srv pr|srv cl k0|srv cl k0|srv cl k0|srv cl k0|srv cl k0|srv cl k0|srv cl k0|srv cl k0|srv cl k0|srv k0|srv k0] eqn:T;
    try discriminate; cbn in CT; injection CT as ->; cbn [insrv].
  - eapply wait1_ends; eauto.
  - destruct (taken_now k n _ T) as (j & LJ & TJ & SJ); [discriminate|intros; cbn [th_step]; discriminate|].
    cbn [th_step] in SJ. rewrite (en_ros H _ _ EN j) in SJ. injection SJ as SJ. pose proof (f_equal (fun c => thr c k) SJ) as S'. cbn in S'. rewrite set_thr_same in S'. symmetry in S'.
    apply (returns_later k n (S j)); [lia|]. eapply wait1_ends; eauto.
  - eapply body_ends; eauto.
  - eapply pub_ends; eauto.
  - eapply flip_ends; eauto.
  - destruct (wait2_ends k n _ _ _ T) as (m & LM & TM). apply (returns_later k n m); [lia|]. eapply clear_ends; eauto.
  - destruct (taken_now k n _ T) as (j & LJ & TJ & SJ); [discriminate|intros; cbn [th_step]; discriminate|].
    cbn [th_step] in SJ. rewrite (en_ros H _ _ EN j) in SJ. injection SJ as SJ. pose proof (f_equal (fun c => thr c k) SJ) as S'. cbn in S'. rewrite set_thr_same in S'. symmetry in S'.
    destruct (wait2_ends k (S j) _ _ _ S') as (m & LM & TM). apply (returns_later k n m); [lia|]. eapply clear_ends; eauto.
  - eapply clear_ends; eauto.
  - eapply sw_ends; eauto.
  - destruct (taken_now k n _ T) as (j & LJ & TJ & SJ); [discriminate|intros; cbn [th_step]; discriminate|].
    cbn [th_step] in SJ. rewrite (en_ros H _ _ EN j) in SJ. injection SJ as SJ. pose proof (f_equal (fun c => thr c k) SJ) as S'. cbn in S'. rewrite set_thr_same in S'. symmetry in S'.
    apply (returns_later k n (S j)); [lia|]. eapply sw_ends; eauto.
Qed.

Lemma ctl_again : always_again (fun n => ctl_lock (exe n) = None).
Proof.
  intros n. destruct (ctl_lock (exe n)) as [j|] eqn:C; [|exists n; auto].
  apply (ib_ctl _ (run_inv n)) in C.
  destruct (cont (thr (exe n) j)) as [kk|] eqn:K; [|destruct (thr (exe n) j); discriminate].
  destruct (call_ends j n kk) as (m & a & LE & _ & Q); [destruct (thr (exe n) j); auto|exact K|]. exists m. auto.
Qed.

Lemma lock_ends k n srv cl kk : thr (exe n) k = TLock srv cl kk -> exists m a, n <= m /\ thr (exe m) k = TProg srv (kk a).
Proof.
  intros T. destruct (taken k n _ T) as (j & LJ & TJ & L); [discriminate| |].
  { intros ST n' LE. destruct (ctl_again n') as (m & LM & P). exists m. split; [exact LM|]. cbn [th_step]. rewrite P. discriminate. }
  pose proof (en_step H _ _ EN j) as S. rewrite L in S. cbn [bstep] in S. rewrite TJ in S. cbn [th_step] in S. destruct (ctl_lock (exe j)); [discriminate|].
  injection S as S. pose proof (f_equal (fun c => thr c k) S) as S'. cbn in S'. rewrite set_thr_same in S'. symmetry in S'.
  assert (RT : returns k (Datatypes.S j) srv kk) by (destruct cl; [eapply wait1_ends|eapply wait1_ends|eapply body_ends]; eauto).
  destruct RT as (m & a & LM & Q & _). exists m, a. split; [lia|exact Q].
Qed.

(** a program ends: the thread is idle, and services_lock_ is free if it held it *)
Definition ends (k n : nat) (srv : bool) : Prop := exists m, n <= m /\ thr (exe m) k = TIdle /\ (srv = true -> srv_lock (exe m) = None).

Lemma ends_later k n n' srv : n <= n' -> ends k n' srv -> ends k n srv.
Proof. intros LE (m & L & Q). exists m. split; [lia|exact Q]. Qed.

Lemma prog_ends k srv : forall pr n, thr (exe n) k = TProg srv pr -> ends k n srv.
Proof.
  induction pr as [| |cl kk IH|kk IH|kk IH|nm kk IH|p kk IH|pr IH|r pr IH]; intros n T.
  - destruct (taken_now k n _ T) as (j & LJ & TJ & SJ); [discriminate|intros; cbn [th_step]; discriminate|].
    cbn [th_step] in SJ. injection SJ as SJ. exists (S j). split; [lia|]. rewrite <- SJ. cbn. rewrite set_thr_same. split; [reflexivity|]. intros ->. reflexivity.
  - destruct (taken_now k n _ T) as (j & LJ & TJ & SJ); [discriminate|intros; cbn [th_step]; discriminate|]. discriminate.
  - destruct (taken_now k n _ T) as (j & LJ & TJ & SJ); [discriminate|intros; cbn [th_step]; discriminate|].
    cbn [th_step] in SJ. injection SJ as SJ. pose proof (f_equal (fun c => thr c k) SJ) as S'. cbn in S'. rewrite set_thr_same in S'. symmetry in S'.
    destruct (lock_ends k (S j) _ _ _ S') as (m & a & LM & TM). apply (ends_later k n m); [lia|]. exact (IH a m TM).
  - destruct (taken k n _ T) as (j & LJ & TJ & L); [discriminate| |].
    { intros ST n' LE. destruct (ctl_again n') as (m & LM & P). exists m. split; [exact LM|]. cbn [th_step]. rewrite P. discriminate. }
    pose proof (en_step H _ _ EN j) as S. rewrite L in S. cbn [bstep] in S. rewrite TJ in S. cbn [th_step] in S. destruct (ctl_lock (exe j)); [discriminate|].
    injection S as S. pose proof (f_equal (fun c => thr c k) S) as S'. cbn in S'. rewrite set_thr_same in S'. symmetry in S'.
    apply (ends_later k n (Datatypes.S j)); [lia|]. exact (IH _ _ S').
  - destruct (taken k n _ T) as (j & LJ & TJ & L); [discriminate| |].
    { intros ST n' LE. destruct (ctl_again n') as (m & LM & P). exists m. split; [exact LM|]. cbn [th_step]. rewrite P. discriminate. }
    pose proof (en_step H _ _ EN j) as S. rewrite L in S. cbn [bstep] in S. rewrite TJ in S. cbn [th_step] in S. destruct (ctl_lock (exe j)); [discriminate|].
    injection S as S. pose proof (f_equal (fun c => thr c k) S) as S'. cbn in S'. rewrite set_thr_same in S'. symmetry in S'.
    apply (ends_later k n (Datatypes.S j)); [lia|]. exact (IH _ _ S').
  - destruct (taken_now k n _ T) as (j & LJ & TJ & SJ); [discriminate|intros; cbn [th_step]; discriminate|].
    cbn [th_step] in SJ. injection SJ as SJ. pose proof (f_equal (fun c => thr c k) SJ) as S'. cbn in S'. rewrite set_thr_same in S'. symmetry in S'.
    apply (ends_later k n (S j)); [lia|]. exact (IH _ _ S').
  - destruct (taken_now k n _ T) as (j & LJ & TJ & SJ); [discriminate|intros; cbn [th_step]; discriminate|].
    cbn [th_step] in SJ. injection SJ as SJ. pose proof (f_equal (fun c => thr c k) SJ) as S'. cbn in S'. rewrite set_thr_same in S'. symmetry in S'.
    apply (ends_later k n (S j)); [lia|]. exact (IH _ _ S').
  - destruct (taken_now k n _ T) as (j & LJ & TJ & SJ); [discriminate|intros; cbn [th_step]; discriminate|].
    cbn [th_step] in SJ. injection SJ as SJ. pose proof (f_equal (fun c => thr c k) SJ) as S'. cbn in S'. rewrite set_thr_same in S'. symmetry in S'.
    apply (ends_later k n (S j)); [lia|]. exact (IH _ S').
  - destruct (taken_now k n _ T) as (j & LJ & TJ & SJ); [discriminate|intros; cbn [th_step]; discriminate|].
    cbn [th_step] in SJ. injection SJ as SJ. pose proof (f_equal (fun c => thr c k) SJ) as S'. cbn in S'. rewrite set_thr_same in S'. symmetry in S'.
    apply (ends_later k n (S j)); [lia|]. exact (IH _ S').
Qed.

(** every call with its lock or waiting for it returns *)
Lemma cont_ends k n kk : cont (thr (exe n) k) = Some kk -> exists m a, n <= m /\ thr (exe m) k = TProg (insrv (thr (exe n) k)) (kk a).
Proof.
  intros CT. destruct (in_call (thr (exe n) k)) eqn:IC.
  - destruct (call_ends k n kk IC CT) as (m & a & LE & Q & _). eauto.
  - destruct (thr (exe n) k) as [|pr|srv pr|srv cl k0|srv cl k0|srv cl k0|srv cl k0|srv cl k0|srv cl k0|srv cl k0|srv cl k0|srv cl k0|srv k0|srv k0] eqn:T; try discriminate.
    cbn in CT. injection CT as ->. cbn [insrv]. eapply lock_ends; eauto.
Qed.

Lemma active_ends k n : thr (exe n) k <> TIdle -> (forall pr, thr (exe n) k <> TWant pr) -> ends k n (insrv (thr (exe n) k)).
Proof.
  intros NI NW. destruct (cont (thr (exe n) k)) as [kk|] eqn:CT.
  - destruct (cont_ends k n kk CT) as (m & a & LE & Q). apply (ends_later k n m); [exact LE|]. exact (prog_ends k _ _ m Q).
  - destruct (thr (exe n) k) as [|pr|srv pr|srv cl k0|srv cl k0|srv cl k0|srv cl k0|srv cl k0|srv cl k0|srv cl k0|srv cl k0|srv cl k0|srv k0|srv k0] eqn:T; try discriminate.
    + congruence.
    + destruct (NW pr eq_refl).
    + cbn [insrv]. eapply prog_ends; eauto.
Qed.

Lemma srv_again : always_again (fun n => srv_lock (exe n) = None).
Proof.
  intros n. destruct (srv_lock (exe n)) as [j|] eqn:C; [|exists n; auto].
  apply (ib_srv _ (run_inv n)) in C. destruct (active_ends j n) as (m & LE & _ & Q).
  - intros X. rewrite X in C. discriminate.
  - intros pr X. rewrite X in C. discriminate.
  - exists m. split; [exact LE|]. apply Q, C.
Qed.

Theorem everybody_finishes k n : exists m, n <= m /\ thr (exe m) k = TIdle.
Proof.
  destruct (classic (thr (exe n) k = TIdle)) as [Z|NI]; [exists n; auto|].
  destruct (classic (exists pr, thr (exe n) k = TWant pr)) as [(pr & T)|NW].
  - destruct (taken k n _ T) as (j & LJ & TJ & L); [discriminate| |].
    { intros ST n' LE. destruct (srv_again n') as (m & LM & P). exists m. split; [exact LM|]. cbn [th_step]. rewrite P. discriminate. }
    pose proof (en_step H _ _ EN j) as S. rewrite L in S. cbn [bstep] in S. rewrite TJ in S. cbn [th_step] in S. destruct (srv_lock (exe j)); [discriminate|].
    injection S as S. pose proof (f_equal (fun c => thr c k) S) as S'. cbn in S'. rewrite set_thr_same in S'. symmetry in S'.
    destruct (prog_ends k true pr _ S') as (m & LM & Q & _). exists m. split; [lia|exact Q].
  - destruct (active_ends k n NI) as (m & LE & Q & _); [intros pr X; apply NW; eauto|]. eauto.
Qed.
End Live.
