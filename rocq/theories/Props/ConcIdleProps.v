(** C98 under every interleaving: joints no running controller commands, and idle robots. *)
From Coq Require Import List String Arith Bool ZArith Lia Reals Lra.
From Flocq Require Import IEEE754.BinarySingleNaN.
From Verif.Model Require Import Base Num Xml Joint Hardware Transmission Simple Wrist Belt Gripper Scheduler Controller Manager ManagerConc Robot Builtin System.
From Verif.Spec Require Import JointSpec TransmissionSpec LocalSpec ManagerSpec RobotSpec SystemSpec ConcSpec ConcSystemSpec HaltSpec ConcHaltSpec.
From Verif.Proofs Require Import NumFacts ManagerProofs ManagerInv CycleTotal LoadProofs RobotProofs WorldSteps SystemProofs ConcBase ConcInv ConcTrace ConcCycle ConcWorld ConcSystem.
From Verif.Props Require Import JointProps ManagerProps RobotProps SystemProps ConcProps ConcSystemProps MotorProps ConcMotorProps ConcHaltProps LifeProps IdleProps.
Import ListNotations.
Local Open Scope string_scope.
Local Open Scope list_scope.
Local Open Scope nat_scope.

Section Generic.
Context {Tr T X : Type} {N : Num T} (K : tclass Tr T) (dbg : bool) (s : rstate) (tick : X -> Z * X)
        (cb : ptr -> callback -> X -> mem T -> X * mem T) (pm pj : Z).
Hypothesis HP : (0 < pm)%Z /\ (0 < pj)%Z.
Let H : hooks (sysw Tr T X) := sys_hooks K dbg s tick cb pm pj.
Notation config := (config (sysw Tr T X)).

(** the callbacks among these events leave joint [k]'s command alone *)
Definition leaving (k : nat) (evs : list event) : Prop := forall q kd, In (EvCb q kd) evs -> leaves_command cb k (q, kd).
Lemma leaving_app k a b : leaving k (a ++ b) -> leaving k a /\ leaving k b.
Proof. intros L. split; intros q kd I; apply L, in_or_app; auto. Qed.
Lemma leaving_cbs k cbs : leaving k (cb_events cbs) -> Forall (leaves_command cb k) cbs.
Proof. intros L. apply Forall_forall. intros [q kd] I. apply L. apply in_map_iff. exists (q, kd). auto. Qed.

(** the callbacks of a realtime step are its events *)
Lemma rt_step_ran free a b pc (m m' : mgr (sysw Tr T X)) pc' : rt_step H free a b pc m = Ok (m', pc') ->
  match pc with
  | RRestart _ | RRestarting _ => exists cbs, WorldSteps.ran H cbs m m' /\ same_pub m m'
  | RUpdate i => (exists cbs, WorldSteps.ran H cbs m m' /\ same_pub m m' /\ pc' = RUpdate (S i)) \/ pc' = REffort
  | _ => True
  end.
Proof.
  destruct pc as [|x| |i|i|i| | |t| | |ps|ps|]; cbn [rt_step]; intros E; try exact Logic.I.
  - destruct (rt_list m) as [l| | |]; cbn [bind] in E; try discriminate. destruct (Nat.ltb i (List.length l)).
    + destruct (rt_nth m i) as [e| | |]; cbn [bind] in E; try discriminate. destruct (isRunning _).
      * pose proof (stop_pub H (e_ptr e) m) as B. destruct (stop_ctrl H (e_ptr e) m) as [x m1] eqn:ST. injection E as <- <-.
        destruct (ran_stop H _ _ _ _ ST) as [cbs A]. exists cbs. split; [exact A|exact B].
      * injection E as <- <-. exists []. split; [apply ran_nil; reflexivity|split; reflexivity].
    + injection E as <- <-. exists []. split; [apply ran_nil; reflexivity|split; reflexivity].
  - destruct (rt_nth m i) as [e| | |]; cbn [bind] in E; try discriminate.
    pose proof (start_pub H (e_ptr e) m) as B. destruct (start_ctrl H (e_ptr e) m) as [x m1] eqn:ST. injection E as <- <-.
    destruct (ran_start H _ _ _ _ ST) as [cbs A]. exists cbs. split; [exact A|exact B].
  - destruct (rt_list m) as [l| | |]; cbn [bind] in E; try discriminate. destruct (Nat.ltb i (List.length l)).
    + destruct (rt_update_one H m i) as [m1| | |] eqn:U; cbn [bind] in E; try discriminate. injection E as <- <-. left.
      unfold rt_update_one in U. destruct (rt_nth m i) as [e| | |]; cbn [bind] in U; try discriminate.
      pose proof (ran_now H m) as R1. destruct (now H m) as [t0 m0] eqn:N0. cbn [snd] in R1.
      destruct (ran_update H (e_ptr e) m0) as [c2 R2].
      pose proof (ran_now H (update_ctrl H (e_ptr e) m0)) as R3. destruct (now H (update_ctrl H (e_ptr e) m0)) as [t1 m3] eqn:N3. cbn [snd] in R3.
      injection U as <-. exists c2. split; [|split; [|reflexivity]].
      { rewrite <- (app_nil_l c2), <- (app_nil_r c2). eapply ran_trans; [exact R1|]. eapply ran_trans; [exact R2|exact R3]. }
      assert (S0 : same_pub m m0). { unfold now in N0. destruct (h_now H (world m)). injection N0 as _ <-. split; reflexivity. }
      assert (S1 : same_pub m0 (update_ctrl H (e_ptr e) m0)). { unfold update_ctrl. destruct (updateRequest _) as [cbs st]. apply (calls_pub H (e_ptr e) cbs m0). }
      assert (S3 : same_pub (update_ctrl H (e_ptr e) m0) m3). { unfold now in N3. destruct (h_now H _). injection N3 as _ <-. split; reflexivity. }
      pose proof (same_pub_trans _ _ _ S0 (same_pub_trans _ _ _ S1 S3)) as [Q1 Q2]. split; assumption.
    + injection E as <- <-. right. reflexivity.
Qed.

(** what happens to the record of the cycle's events *)
Lemma rt_cyc a b (c c' : config) : bstep H (LRt a b) c = Some (Ok c') -> (forall x, rt c <> RGot x) ->
  cyc c' = cyc c ++ new_events (mg c) (mg c').
Proof.
  intros E NG. cbn [bstep] in E. unfold do_rt in E. destruct (rt_step H _ a b (rt c) (mg c)) as [[m' pc']| | |]; cbn [bind] in E; try discriminate.
  injection E as <-. cbn [cyc mg]. destruct (rt c) as [|x| | | | | | | | | | | |]; try reflexivity. destruct (NG x eq_refl).
Qed.
Lemma rt_ran a b (c c' : config) : bstep H (LRt a b) c = Some (Ok c') ->
  match rt c with
  | RRestart _ | RRestarting _ => exists cbs, WorldSteps.ran H cbs (mg c) (mg c') /\ same_pub (mg c) (mg c')
  | RUpdate i => (exists cbs, WorldSteps.ran H cbs (mg c) (mg c') /\ same_pub (mg c) (mg c') /\ rt c' = RUpdate (S i)) \/ rt c' = REffort
  | _ => True
  end.
Proof.
  intros E. cbn [bstep] in E. unfold do_rt in E. destruct (rt_step H _ a b (rt c) (mg c)) as [[m' pc']| | |] eqn:R; cbn [bind] in E; try discriminate.
  injection E as <-. cbn [rt mg]. exact (rt_step_ran _ _ _ _ _ _ _ R).
Qed.
Lemma other_cyc l (c c' : config) : bstep H l c = Some (Ok c') -> (forall a b, l <> LRt a b) -> cyc c' = cyc c.
Proof.
  intros E NR. destruct l as [a b|k|k srv pr| | | |f]; cbn [bstep] in E; [destruct (NR a b eq_refl)| | | | | |].
  - destruct (thr c k) as [|pr|srv pr|srv cl kk|srv cl kk|srv cl kk|srv cl kk|srv cl kk|srv cl kk|srv cl kk|srv cl kk|srv cl kk|srv kk|srv kk];
    cbn [th_step] in E; try discriminate;
    repeat (match type of E with
     | context [match ?x with _ => _ end] => destruct x; try discriminate
     | context [if ?x then _ else _] => destruct x; try discriminate end);
    injection E as <-; reflexivity.
  - destruct (thr c k); try discriminate. injection E as <-. reflexivity.
  - destruct (pub_lock c); [discriminate|]. injection E as <-. reflexivity.
  - destruct (pub_lock c) as [[]|]; try discriminate. injection E as <-. reflexivity.
  - injection E as <-. reflexivity.
  - injection E as <-. reflexivity.
Qed.

(** In every interleaving, in the state in which the effort commands have just been handed to the transmissions: the command
    handed over for joint [k] is what limit enforcement made of zero, unless a callback this cycle ran writes it. *)
Lemma conc_zero : forall k p0 m0 ls c p,
  k < rs_size s -> keeps_joints cb -> inits_leave cb k ->
  starts p0 m0 -> steps H (quiet m0) ls c -> outside_labels ls -> outside_leaves k ls -> sy_plant (world (mg c)) = Ok p ->
    match rt c with
    | RRestart _ | RRestarting _ | RUpdate _ => leaving k (cyc c) -> commanded_effort (m_js (pl_mem p) k) = nzero
    | REffort => leaving k (cyc c) -> exists j, commanded_effort j = nzero /\ enforced_from j (m_js (pl_mem p) k)
    | RPub1 => exists l ms ma, SystemSpec.sent (sy_out (world (mg c))) = l ++ [(ms, ma)] /\
        (leaving k (cyc c) -> exists j, commanded_effort j = nzero /\ enforced_from j (m_js ms k))
    | _ => True
    end.
Proof.
  intros k p0 m0 ls c p LT KJ IL ST S OL OV P.
  revert p P. remember (quiet m0) as c0 eqn:E0. induction S as [c0|c0 ls c1 l c2 S IH E]; intros p P; subst c0.
  - exact Logic.I.
  - apply Forall_app in OL. destruct OL as [OL OL1]. apply Forall_app in OV. destruct OV as [OV OV1].
    specialize (IH eq_refl OL OV).
    assert (CASES : (exists a b, l = LRt a b) \/ forall a b, l <> LRt a b) by (destruct l; [left; eauto|right; congruence..]).
    destruct CASES as [(a & b & ->)|NR].
    + destruct (rt_plant K dbg s tick cb pm pj a b c1 c2 p E P) as (q & Qq & SS). specialize (IH q Qq).
      cbn [sys_step] in SS. unfold out_of, quiet_out in SS.
      pose proof (rt_ran a b c1 c2 E) as RN. pose proof (rt_cyc a b c1 c2 E) as CY.
      assert (CBS : forall cbs, WorldSteps.ran H cbs (mg c1) (mg c2) -> same_pub (mg c1) (mg c2) -> (forall x, rt c1 <> RGot x) ->
                (leaving k (cyc c1) -> commanded_effort (m_js (pl_mem q) k) = nzero) ->
                leaving k (cyc c2) -> commanded_effort (m_js (pl_mem p) k) = nzero).
      { intros cbs [TR AC] SP NG ZQ LV. rewrite (CY NG), (new_events_app _ _ _ TR) in LV. apply leaving_app in LV. destruct LV as [L1 L2].
        destruct (moved_plant K dbg s tick cb pm pj cbs c1 c2 p (conj AC SP) P) as (q' & m & A1 & A2 & A3 & _). rewrite Qq in A1. injection A1 as <-.
        subst p. cbn [pl_mem set_pl_mem]. rewrite (written_command cb cbs _ _ k (leaving_cbs _ _ L2) A2). exact (ZQ L1). }
      destruct (rt c1) as [|x| |i|i|i| | |t| | |ps|ps|].
      * destruct SS as (_ & _ & PC). destruct (rt c2); try exact Logic.I; destruct PC.
      * destruct SS as (_ & _ & PC). destruct (rt c2); try exact Logic.I; destruct PC.
      * destruct SS as (ts & m1 & m2 & _ & Z0 & -> & _ & PC).
        assert (QZ : commanded_effort (m_js (pl_mem (set_pl_mem m2 (set_pl_ts ts (set_pl_mem m1 q)))) k) = nzero).
        { cbn [pl_mem set_pl_mem]. rewrite (proj2 (zero_spec s _ _ Z0) k LT). reflexivity. }
        destruct PC as [-> | ->]; intros _; exact QZ.
      * destruct SS as (_ & _ & PC). destruct RN as (cbs & R & SP).
        pose proof (CBS cbs R SP ltac:(discriminate) IH) as Y. destruct (rt c2); try exact Logic.I; try exact Y; destruct PC.
      * destruct SS as (_ & _ & PC). destruct RN as (cbs & R & SP).
        pose proof (CBS cbs R SP ltac:(discriminate) IH) as Y. destruct (rt c2); try exact Logic.I; try exact Y; destruct PC.
      * destruct SS as [(_ & _ & PC)|(m & EN & -> & _ & PC)].
        { destruct RN as [(cbs & R & SP & PC')|PC']; [|rewrite PC' in PC; discriminate]. rewrite PC. exact (CBS cbs R SP ltac:(discriminate) IH). }
        rewrite PC. rewrite (CY ltac:(discriminate)). intros LV. apply leaving_app in LV. destruct LV as [LV _].
        exists (m_js (pl_mem q) k). split; [exact (IH LV)|]. cbn [pl_mem set_pl_mem]. exists (m_js m k). split; [|auto].
        apply (enforce_spec s _ _ EN). exact LT.
      * destruct SS as (ts & m & EF & -> & OO & _ & ->). rewrite OO, sent_snoc. eexists _, _, _. split; [reflexivity|].
        rewrite (CY ltac:(discriminate)). intros LV. apply leaving_app in LV. destruct LV as [LV _]. exact (IH LV).
      * destruct SS as (_ & _ & PC). destruct PC as [-> |(t & -> & _)]; exact Logic.I.
      * destruct SS as (m & js & acts & _ & _ & _ & _ & _ & _ & ->). exact Logic.I.
      * destruct SS as (-> & _). exact Logic.I.
      * destruct SS as (_ & _ & PC). destruct (rt c2); try exact Logic.I; destruct PC.
      * destruct SS as (_ & _ & PC). destruct (rt c2); try exact Logic.I; destruct PC.
      * destruct SS as (_ & _ & PC). destruct (rt c2); try exact Logic.I; destruct PC.
      * destruct SS as (_ & _ & PC). destruct (rt c2); try exact Logic.I; destruct PC.
    + inversion OL1 as [|? ? OL2 _]; subst.
      destruct (other_plant K dbg s tick cb pm pj l c1 c2 p E NR OL2 P) as (q & m & Qq & -> & [OO _] & RT & JJ & CC).
      specialize (IH q Qq). specialize (JJ KJ k). specialize (CC k IL OV1). unfold out_of in OO.
      rewrite OO, RT, (other_cyc l c1 c2 E NR). cbn [pl_mem set_pl_mem].
      destruct (rt c1); try exact Logic.I; try (rewrite CC; exact IH); [|exact IH].
      intros LV. destruct (IH LV) as (j & QJ & j1 & E1 & E2 & E3). exists j. split; [exact QJ|]. exists j1. split; [exact E1|]. split; [now rewrite CC|now rewrite JJ].
Qed.

Lemma steady_steps c0 ls c : steady H c0 ls c -> steps H c0 ls c.
Proof. intros S. induction S as [c|c ls c1 l c2 S IH E NS]; [constructor|eapply steps_snoc; eauto]. Qed.

(** In every interleaving of the realtime thread with loads, unloads, switches and the hardware: whenever the realtime thread
    has just handed the effort commands to the transmissions, the command for joint [k] is what limit enforcement made of zero,
    unless the starting, stopping or update code of a controller of this cycle's list that was running when the cycle
    took the list writes that joint's command. *)
Theorem C98_uncommanded_joint_interleaved : forall k p0 m0 ls c p,
  k < rs_size s -> keeps_joints cb -> inits_leave cb k -> reachable H m0 -> please m0 = false ->
  starts p0 m0 -> steady H (quiet m0) ls c -> rosok c = true -> outside_labels ls -> outside_leaves k ls -> sy_plant (world (mg c)) = Ok p ->
  rt c = RPub1 ->
  exists b l ms ma, used (snap c) = Some b /\ SystemSpec.sent (sy_out (world (mg c))) = l ++ [(ms, ma)] /\
    ((forall q kd, In q (map e_ptr (lists (snap c) b)) -> running (snap c) q -> (forall d, kd <> CbInit d) -> leaves_command cb k (q, kd)) ->
     exists j, commanded_effort j = nzero /\ enforced_from j (m_js ms k)).
Proof.
  intros k p0 m0 ls c p LT KJ IL RE PL ST S RO OL OV P PC.
  pose proof (conc_zero k p0 m0 ls c p LT KJ IL ST (steady_steps _ ls c S) OL OV P) as Z. rewrite PC in Z.
  destruct Z as (l & ms & ma & SE & Z).
  assert (LV : live H c) by (exists m0, ls; auto).
  destruct HP as [Hpm Hpj].
  pose proof (cycle_history H Hpm Hpj m0 ls c (inv_of H HP m0 RE) PL S RO) as CO. unfold cyc_ok in CO. rewrite PC in CO.
  destruct CO as (b & again & pubs & TK & _ & PB & CE). exists b, l, ms, ma. destruct TK as (U & _). split; [exact U|]. split; [exact SE|].
  intros LC. apply Z. intros q kd IN. rewrite CE in IN. unfold ConcCycle.sent in IN.
  assert (ORD : forall q0, In q0 (order_of (snap c) b) -> In q0 (map e_ptr (lists (snap c) b))).
  { intros q0. rewrite order_of_map. intros IQ. destruct (live_snap H HP c LV) as [_ SG]. 
    eapply Permutation.Permutation_in; [|exact IQ]. apply Permutation.Permutation_map. apply (order_in_list_perm (snap c) b (SG b U)). }
  assert (RUNS : forall q0, runningb (snap c) q0 = true -> running (snap c) q0).
  { intros q0 R. unfold running. unfold runningb, isRunning in R. destruct (co_state (heap (snap c) q0)); try discriminate; reflexivity. }
  assert (G : (In q (order_of (snap c) b) /\ runningb (snap c) q = true) /\ forall d, kd <> CbInit d).
  { rewrite !in_app_iff in IN. destruct IN as [[F|[F|[]]]|[IN|[IN|[[F|[F|[]]]|IN]]]]; try discriminate.
    - unfold restarted in IN. destruct again; [|destruct IN]. unfold restart_evs in IN. apply in_flat_map in IN. destruct IN as (q0 & I0 & IN).
      destruct (runningb (snap c) q0) eqn:R0; [|destruct IN]. destruct IN as [[= <- <-]|[[= <- <-]|[]]]; (split; [auto|discriminate]).
    - unfold update_evs in IN. apply in_flat_map in IN. destruct IN as (q0 & I0 & IN).
      destruct (runningb (snap c) q0) eqn:R0; [|destruct IN]. destruct IN as [[= <- <-]|[]]; (split; [auto|discriminate]).
    - rewrite forallb_forall in PB. specialize (PB _ IN). discriminate. }
  destruct G as [[G1 G2] G3]. apply LC; auto.
Qed.
End Generic.

Section Motors.
Context {X : Type} {G : Trig B64}.
Variables (dbg : bool) (P : parsers B64) (L : loader (transmission B64)).
Hypothesis HL : forall c t, ld_create L c = Some t -> is_new t.
Notation K := (builtin dbg P).
Variables (urdf : xml -> option (string -> option (ujoint B64))) (config : xml) (g : B64) (hw : hwif) (mem0 : mem B64) (s : rstate) (p0 : plant (transmission B64) B64).
Hypothesis HI : cm_initXml K dbg L urdf config g hw mem0 = Ok (Some (s, p0)).
Hypothesis HU : forall e, In e (ChildElements config "transmission") -> usable L e.
Variables (tick : X -> Z * X) (cb : ptr -> callback -> X -> mem B64 -> X * mem B64) (pm pj : Z).
Hypothesis HC : keeps_joints cb.
Hypothesis HP : (0 < pm)%Z /\ (0 < pj)%Z.
Let H : hooks (sysw (transmission B64) B64 X) := sys_hooks K dbg s tick cb pm pj.

Lemma enforced_zero (j j' : jointstate B64) : commanded_effort j = f0 -> enforced_from j j' -> zero_allowed j -> commanded_effort j' = f0.
Proof.
  intros Z (j1 & E & C & _) A. rewrite C. apply (C98_zero_stays_zero j j1 Z E).
  unfold zero_allowed. rewrite (limits_same _ _ E). exact A.
Qed.

(** In every interleaving, when the efforts have just been handed to the transmissions: the motor behind a simple transmission
    gets no effort while no controller running in this cycle commands the joint and the joint's limits allow zero at the
    enforcement. *)
Theorem C98_simple_motor_limp_interleaved : forall m0 ls c i x a q,
  starts p0 m0 -> please m0 = false -> steady H (quiet m0) ls c -> rosok c = true -> outside_labels ls -> outside_leaves q ls -> inits_leave cb q ->
  rt c = RPub1 -> nth_error (pl_ts p0) i = Some (TSimple x) -> exclusive (rs_in s) i -> pointer_at (rs_in s) i 0 a -> pointer_at (rs_out s) i 0 q ->
  finite (st_red x) -> B2R (st_red x) <> 0%R ->
  exists b l ms ma, used (snap c) = Some b /\ SystemSpec.sent (sy_out (world (mg c))) = l ++ [(ms, ma)] /\
    ((forall k kd, In k (map e_ptr (lists (snap c) b)) -> running (snap c) k -> (forall d, kd <> CbInit d) -> leaves_command cb q (k, kd)) ->
     exists j, commanded_effort j = nzero /\ enforced_from j (m_js ms q) /\ (zero_allowed j -> a_enable (m_act ma a) = true /\ no_effort (a_effort (m_act ma a)))).
Proof.
  intros m0 ls c i x a q ST PL S RO OL OV IL PC X0 EX PA PQ FR NZ.
  pose proof (steady_steps K dbg s tick cb pm pj _ ls c S) as SS.
  assert (RE : reachable H m0).
  { destruct (fine_history dbg P L HL urdf config g hw mem0 s p0 HI HU tick cb pm pj HC m0 m0 ST ltac:(constructor)) as [RE _]. exact RE. }
  destruct (fine_steps dbg P L HL urdf config g hw mem0 s p0 HI HU tick cb pm pj HC m0 ls c ST SS OL) as (p & Qp & _).
  assert (LT : q < rs_size s).
  { destruct PQ as (qs & A & B). eapply (outputs_in_range dbg P L HL urdf config g hw mem0 s p0 HI HU); eapply nth_error_In; [exact A|exact B]. }
  destruct (C98_uncommanded_joint_interleaved K dbg s tick cb pm pj HP q p0 m0 ls c p LT HC IL RE PL ST S RO OL OV Qp PC) as (b & l & ms & ma & U & SE & Z).
  exists b, l, ms, ma. split; [exact U|]. split; [exact SE|].
  assert (IN : In (ms, ma) (SystemSpec.sent (sy_out (world (mg c))))) by (rewrite SE; apply in_or_app; right; left; reflexivity).
  destruct (C91_motor_commands dbg P L HL urdf config g hw mem0 s p0 HI HU tick cb pm pj HC m0 ls c ms ma i _ ST SS OL IN X0 EX)
    as (t & as_ & js & t1 & mt & SP & RD & FI & NA & NJ & F & MA & EN & JJ).
  intros LC. destruct (Z LC) as (j & Z0 & EF). exists j. split; [exact Z0|]. split; [exact EF|]. intros ZA.
    assert (CZ : commanded_effort (m_js ms q) = f0) by (exact (enforced_zero j _ Z0 EF ZA)).
    destruct (simple_given dbg P s x t as_ js t1 ms mt ma i a q f0 SP RD FI NA NJ F MA PA PQ FR NZ) as (A & B & _).
    { rewrite CZ. repeat split; auto; lra. }
    split; [exact A|]. rewrite B, CZ. apply div_zero; auto. reflexivity.
Qed.
End Motors.

(** ** Example: the run of C91_ex continued: another service thread stops the controller; the next cycle sends no effort *)
Section Example.
Context {G : Trig B64}.
Notation exb_label := (label (sysw (transmission B64) B64 Z)).
Definition exi_ls : list exb_label := exb_ls ++ times 3 [LTh 1] ++ [LStart 2 true (switch_service [] ["a"] STRICT)] ++ times 7 [LTh 2] ++ times 17 [LRt true true].
Definition exi_ran : config (sysw (transmission B64) B64 Z) := reached exb_hooks exi_ls exb0.
Theorem C98_ex_interleaved : map (fun x => map B2SF [commanded_effort (m_js (fst x) 0); a_effort (m_act (snd x) 0)]) (SystemSpec.sent (sy_out (world (mg exi_ran))))
  = map (fun z => map B2SF [nofZ (fst z); nofZ (snd z)]) [(0, 0); (0, 0); (30, 15); (30, 15); (30, 15); (0, 0)]%Z.
Proof. vm_compute. reflexivity. Qed.

Lemma exi_generic : forall ls (c : config (sysw (transmission B64) B64 Z)),
  match srun exb_hooks ls (quiet exb0) with Some c => c | None => quiet exb0 end = c ->
  match srun exb_hooks ls (quiet exb0) with Some c => rosok c | None => false end = true ->
  forallb (fun l : exb_label => match l with LEnv _ => false | _ => true end) ls = true -> please exb0 = false ->
  match rt c with RPub1 => true | _ => false end = true ->
  match used (snap c) with Some b => (Nat.eqb (List.length (lists (snap c) b)) 1 && negb (existsb (fun e => runningb (snap c) (e_ptr e)) (lists (snap c) b)))%bool | None => false end = true ->
  exists b l ms ma, used (snap c) = Some b /\ lists (snap c) b <> [] /\ SystemSpec.sent (sy_out (world (mg c))) = l ++ [(ms, ma)] /\
    exists j, commanded_effort j = nzero /\ enforced_from j (m_js ms 0) /\ (zero_allowed j -> a_enable (m_act ma 0) = true /\ no_effort (a_effort (m_act ma 0))).
Proof.
  intros ls c E R EL PL PC U. destruct exb_first as (x & X0 & XR). destruct exb1_history as [ST _].
  assert (TW : finite (st_red x) /\ B2R (st_red x) <> 0%R) by (rewrite XR; exact two_R). destruct TW as [F2 N2]. clear XR.
  assert (OO : outside_labels ls /\ outside_leaves 0 ls).
  { rewrite forallb_forall in EL. split; apply Forall_forall; intros l IN; specialize (EL l IN); destruct l; try exact Logic.I; discriminate. }
  destruct OO as [OL OV].
  destruct (srun exb_hooks ls (quiet exb0)) as [c1|] eqn:SR; [|discriminate]. subst c1.
  assert (SS : steady exb_hooks (quiet exb0) ls c) by (apply (srun_steady exb_hooks ls _ _ SR (quiet exb0) []); constructor).
  assert (PC' : rt c = RPub1) by (destruct (rt c); try discriminate; reflexivity).
  destruct (C98_simple_motor_limp_interleaved true exb_P exb_L exb_new exb_urdf exb_root nzero ex_hw exb_mem exb_state exb_plant exb_loaded exb_usable exd_tick exd_cb 45%Z 25%Z exb_cb_keeps
    ltac:(split; reflexivity) exb0 ls c 0 x 0 0 ST PL SS R OL OV (fun _ _ _ _ => eq_refl) PC' X0 exb_exclusive exb_act exb_joint F2 N2) as (b & l & ms & ma & US & SE & Z).
  rewrite US in U. apply andb_prop in U. destruct U as [U1 U2]. exists b, l, ms, ma. split; [exact US|]. split; [intros Q; rewrite Q in U1; discriminate|]. split; [exact SE|].
  apply Z. intros k kd IK RU _. exfalso. apply in_map_iff in IK. destruct IK as (e & <- & IE).
  assert (Q : existsb (fun e => runningb (snap c) (e_ptr e)) (lists (snap c) b) = true).
  { apply existsb_exists. exists e. split; [exact IE|]. unfold runningb. rewrite RU. reflexivity. }
  rewrite Q in U2. discriminate.
Qed.
Theorem C98_ex_interleaved_hypotheses : exists b l ms ma, used (snap exi_ran) = Some b /\ lists (snap exi_ran) b <> [] /\ SystemSpec.sent (sy_out (world (mg exi_ran))) = l ++ [(ms, ma)] /\
    exists j, commanded_effort j = nzero /\ enforced_from j (m_js ms 0) /\ (zero_allowed j -> a_enable (m_act ma 0) = true /\ no_effort (a_effort (m_act ma 0))).
Proof.
  apply exi_generic with exi_ls.
  - unfold exi_ran, reached. reflexivity.
  - vm_compute. reflexivity.
  - vm_compute. reflexivity.
  - vm_compute. reflexivity.
  - vm_compute. reflexivity.
  - vm_compute. reflexivity.
Qed.
End Example.
