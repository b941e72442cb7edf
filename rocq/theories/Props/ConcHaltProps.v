(** C94: motors halted and enabled again, under every interleaving. *)
From Coq Require Import List String Arith Bool ZArith Lia.
From Verif.Model Require Import Base Num Joint Hardware Xml Transmission Simple Wrist Belt Gripper Scheduler Controller Manager ManagerConc Robot Builtin System.
From Verif.Spec Require Import JointSpec ManagerSpec LocalSpec RobotSpec SystemSpec HaltSpec ConcSpec ConcSystemSpec ConcHaltSpec.
From Verif.Proofs Require Import Locality OverLocal RobotProofs WorldSteps SystemProofs HaltProofs CycleTotal ConcBase ConcInv ConcTrace ConcCycle ConcSystem.
From Verif.Props Require Import ConcMotorProps JointProps ManagerProps RobotProps SystemProps MotorProps HaltProps ConcProps ConcSystemProps.
Import ListNotations.
Local Open Scope nat_scope.

Lemma pre_prev {W} (H : hooks W) m : prev_halted (rt_pre H m) = prev_halted m.
Proof.
  unfold rt_pre. pose proof (now_prev H m) as A. unfold same_prev in A. destruct (now H m) as [t m1]. cbn [snd] in A. rewrite <- A.
  match goal with |- prev_halted (let '(_, m) := now H ?x in m) = _ => pose proof (now_prev H x) as B; unfold same_prev in B; destruct (now H x) as [t2 m2]; cbn [snd] in B; rewrite B end. reflexivity.
Qed.
(** the only steps that record whether motors are halted are those that begin the updates *)
Lemma rt_step_prev {W} (H : hooks W) free a b pc m m' pc' : rt_step H free a b pc m = Ok (m', pc') ->
  (pc' = RUpdate 0 /\ prev_halted m' = h_halted H (world m')) \/ (pc' <> RUpdate 0 /\ prev_halted m' = prev_halted m).
Proof.
  destruct pc as [|x| |i|i|i| | |t| | |ps|ps|]; cbn [rt_step]; intros E.
  - injection E as <- <-. right. split; [discriminate|reflexivity].
  - injection E as <- <-. right. split; [discriminate|reflexivity].
  - pose proof (pre_prev H m) as P.
    destruct (rt_must_restart H (rt_pre H m)); injection E as <- <-; [right; split; [discriminate|exact P]|left; split; reflexivity].
  - destruct (rt_list m) as [l| | |]; cbn [bind] in E; try discriminate. destruct (Nat.ltb i (List.length l)).
    + destruct (rt_nth m i) as [e| | |]; cbn [bind] in E; try discriminate. destruct (isRunning _).
      * pose proof (stop_prev H (e_ptr e) m) as B. destruct (stop_ctrl H (e_ptr e) m) as [y m1]. injection E as <- <-. right. split; [discriminate|exact B].
      * injection E as <- <-. right. split; [discriminate|reflexivity].
    + injection E as <- <-. left. split; reflexivity.
  - destruct (rt_nth m i) as [e| | |]; cbn [bind] in E; try discriminate. pose proof (start_prev H (e_ptr e) m) as B.
    destruct (start_ctrl H (e_ptr e) m) as [y m1]. injection E as <- <-. right. split; [discriminate|exact B].
  - destruct (rt_list m) as [l| | |]; cbn [bind] in E; try discriminate. destruct (Nat.ltb i (List.length l)).
    + destruct (rt_update_one H m i) as [m1| | |] eqn:U; cbn [bind] in E; try discriminate. injection E as <- <-. right. split; [discriminate|].
      unfold rt_update_one in U. destruct (rt_nth m i) as [e| | |]; cbn [bind] in U; try discriminate.
      pose proof (now_prev H m) as A. destruct (now H m) as [t0 m2]. cbn [snd] in A.
      assert (B : same_prev m2 (update_ctrl H (e_ptr e) m2)).
      { unfold update_ctrl. destruct (updateRequest _) as [cbs s]. apply (calls_prev H (e_ptr e) cbs m2). }
      pose proof (now_prev H (update_ctrl H (e_ptr e) m2)) as C. destruct (now H (update_ctrl H (e_ptr e) m2)) as [t1 m3]. cbn [snd] in C.
      injection U as <-. exact (same_prev_trans _ _ _ A (same_prev_trans _ _ _ B C)).
    + injection E as <- <-. right. split; [discriminate|]. unfold rt_enforce. pose proof (now_prev H m) as A. destruct (now H m) as [t m1]. exact A.
  - injection E as <- <-. right. split; [discriminate|]. unfold rt_send. cbv zeta.
    match goal with |- prev_halted (let '(_, m) := now H ?x in m) = _ => pose proof (now_prev H x) as B; unfold same_prev in B; destruct (now H x) as [t2 m2]; cbn [snd] in B; rewrite B end. reflexivity.
  - pose proof (now_prev H m) as B. destruct (now H m) as [t m1]. cbn [snd] in B. destruct (_ && _ && _); injection E as <- <-; right; (split; [discriminate|exact B]).
  - unfold rt_fill_mech in E. destruct (catch_up _ _ _ _) as [last| | |]; cbn [bind] in E; try discriminate.
    destruct (rt_list _) as [l| | |]; cbn [bind] in E; try discriminate.
    destruct (fill_stats _ _ _ _ _) as [out| | |]; cbn [bind] in E; try discriminate.
    set (m2 := set_mstats _ _) in E. assert (B : same_prev m m2) by reflexivity. clearbody m2.
    pose proof (now_prev H m2) as C. destruct (now H m2) as [t2 m3]. cbn [snd bind] in C, E. injection E as <- <-. right. split; [discriminate|].
    exact (same_prev_trans _ _ _ B C).
  - destruct (publishJointState H b m) as [m1| | |] eqn:U; cbn [bind] in E; try discriminate. injection E as <- <-. right. split; [discriminate|]. apply (js_prev H _ _ _ U).
  - destruct (please m); injection E as <- <-; right; (split; [discriminate|reflexivity]).
  - destruct ps as [|p ps]; injection E as <- <-; right; (split; [discriminate|]); [reflexivity|].
    unfold rt_stop_one. pose proof (stop_prev H p m) as B. destruct (stop_ctrl H p m) as [y m1]. cbn [snd] in B. destruct y; exact B.
  - destruct ps as [|p ps]; injection E as <- <-; right; (split; [discriminate|]); [reflexivity|].
    unfold rt_start_one. pose proof (start_prev H p m) as B. destruct (start_ctrl H p m) as [y m1]. cbn [snd] in B. destruct y; exact B.
  - injection E as <- <-. right. split; [discriminate|reflexivity].
Qed.

(** a cycle keeps to its decision *)
Section OneCycle.
Context {W : Type} (H : hooks W).
Hypothesis HP : positive_periods H.
Lemma one_cycle m ls c1 dec ls' c3 : reachable H m -> please m = false -> steady H (quiet m) ls c1 ->
  match rt c1 with RIdle | RGot _ | RBegin => False | _ => True end -> cyc_ok (fun b _ => b = dec) c1 ->
  same_cycle H c1 ls' c3 -> rosok c3 = true ->
  steady H (quiet m) (ls ++ ls') c3 /\ (rt c3 = RIdle \/ match rt c3 with RIdle | RGot _ | RBegin => False | _ => True end) /\ cyc_ok (fun b _ => b = dec) c3 /\ (cyc c1 <> [] -> cyc c3 <> []).
Proof.
  intros RE PL S NB C0 SC. induction SC as [|ls' c2 l c3 SC IH NI E]; intros RO.
  - rewrite app_nil_r. auto.
  - destruct (IH (rosok_back H _ _ _ E RO)) as (S2 & [X|NB2] & C2 & CY); [congruence|].
    assert (I2 : InvB c2) by (eapply (steady_inv H); [apply HP|apply HP|apply (inv_of H HP m RE)|exact PL|exact S2|exact (rosok_back H _ _ _ E RO)]).
    assert (NS : ~ stale_start c2) by (intros (_ & b & Rb & _); rewrite Rb in NB2; exact NB2).
    split; [rewrite app_assoc; eapply steady_snoc; eauto|].
    destruct (step_cases H l c2 c3 I2 (rosok_back H _ _ _ E RO) E RO) as [(a & b & -> & E')|Cl].
    + split; [|split].
      * destruct (do_rt_desc H (proj1 HP) (proj2 HP) a b c2 c3 I2 NS E') as (evs & T & D & _). unfold rt_desc in D.
        destruct (rt c2) as [|x| |i|i|i| | |t| | |ps|ps|]; try contradiction.
        -- destruct D as (_ & b0 & _ & [(e & _ & _ & D)|(_ & _ & D & _)]); [|rewrite D; auto].
           destruct (runningb _ _); destruct D as (_ & D & _); rewrite D; auto.
        -- destruct D as (_ & b0 & e & _ & _ & _ & _ & D & _). rewrite D; auto.
        -- destruct D as (_ & _ & b0 & _ & [(e & _ & _ & D & _)|(_ & _ & D)]); rewrite D; auto.
        -- destruct D as (_ & _ & _ & D). rewrite D; auto.
        -- destruct D as (_ & _ & _ & [D|(t & D)]); rewrite D; auto.
        -- destruct D as (_ & _ & D & _). rewrite D; auto.
        -- destruct D as (_ & _ & D & _). rewrite D; auto.
        -- destruct D as (_ & _ & D). rewrite D. destruct (please (mg c2)); auto.
        -- destruct ps; [destruct D as (_ & _ & D)|destruct D as (_ & _ & _ & D & _)]; rewrite D; auto.
        -- destruct ps; [destruct D as (_ & _ & D)|destruct D as (_ & _ & _ & D & _)]; rewrite D; auto.
        -- destruct D as (_ & _ & D). rewrite D; auto.
      * eapply (cyc_rt H); [apply HP|apply HP|exact I2|exact NS|exact E'| |exact C2]. intros X. rewrite X in NB2. contradiction.
      * intros CN. destruct (do_rt_desc H (proj1 HP) (proj2 HP) a b c2 c3 I2 NS E') as (evs & T & D & _ & _ & _ & _ & Sn).
        assert (EC : cyc c3 = cyc c2 ++ evs) by (destruct (rt c2); try contradiction; apply Sn).
        rewrite EC. intros Y. apply app_eq_nil in Y. apply (CY CN). apply Y.
    + pose proof (cl_rt _ _ Cl) as R1. split; [rewrite R1; auto|]. split; [eapply cyc_client; eauto|]. rewrite (cl_cyc _ _ Cl). exact CY.
Qed.
End OneCycle.

Section Halt.
Context {T X : Type} {N : Num T} {G : Trig T}.
Variables (dbg : bool) (P : parsers T) (L : loader (transmission T)).
Hypothesis HL : forall c t, ld_create L c = Some t -> is_new t.
Notation K := (builtin dbg P).
Variables (urdf : xml -> option (string -> option (ujoint T))) (config : xml) (g : T) (hw : hwif) (mem0 : mem T) (s : rstate) (p0 : plant (transmission T) T).
Hypothesis HI : cm_initXml K dbg L urdf config g hw mem0 = Ok (Some (s, p0)).
Hypothesis HU : forall e, In e (ChildElements config "transmission") -> usable L e.
Variables (tick : X -> Z * X) (cb : ptr -> callback -> X -> mem T -> X * mem T) (pm pj : Z).
Hypothesis HC : keeps_joints cb.
Hypothesis HP : (0 < pm)%Z /\ (0 < pj)%Z.
Let H : hooks (sysw (transmission T) T X) := sys_hooks K dbg s tick cb pm pj.

Lemma look_steady m0 ls c seen : conc_look H p0 m0 ls c seen -> steady H (quiet m0) ls c.
Proof.
  induction 1 as [|ls c seen a b c' p LL IH E NS _ _|ls c seen a b c' LL IH E NS _|ls c seen l c' LL IH E NR]; [constructor|eapply steady_snoc; eauto..].
  intros a b Y. destruct (NR a b Y).
Qed.
Lemma steady_runs m0 ls c : steady H (quiet m0) ls c -> steps H (quiet m0) ls c.
Proof. induction 1; [constructor|econstructor; eauto]. Qed.

(** Every interleaving has such a last look. *)
Theorem C94_every_interleaving_looks : forall m0 ls c, starts p0 m0 -> steady H (quiet m0) ls c -> outside_labels ls ->
  exists seen, conc_look H p0 m0 ls c seen.
Proof.
  intros m0 ls c ST S OL. remember (quiet m0) as c0 eqn:E0. induction S as [c0|c0 ls c1 l c2 S IH E NS]; subst c0.
  - eexists. constructor.
  - assert (OL0 := OL). apply Forall_app in OL. destruct OL as [OL _]. destruct (IH eq_refl OL) as [seen LL].
    destruct (fine_steps dbg P L HL urdf config g hw mem0 s p0 HI HU tick cb pm pj HC m0 _ c2 ST (steady_runs m0 _ c2 (steady_snoc _ _ _ _ _ _ S E NS)) OL0) as (p & Q & _).
    destruct l as [a b|k|k srv pr| | | |f].
    { assert (D : rt c2 = RUpdate 0 \/ rt c2 <> RUpdate 0) by (destruct (rt c2) as [|x| |i|i|[|i]| | |t| | |ps|ps|]; auto; right; discriminate).
      destruct D as [D|D]; eexists; [eapply clook_now; eauto|eapply clook_realtime; eauto]. }
    all: exists seen; eapply clook_other; eauto; discriminate.
Qed.

Lemma clook_prev m0 ls c seen : starts p0 m0 -> reachable H m0 -> please m0 = false -> remembers_initial_halt s p0 m0 ->
  conc_look H p0 m0 ls c seen -> rosok c = true -> prev_halted (mg c) = isHalted s seen.
Proof.
  intros ST RE PL RI LL. induction LL as [|ls c seen a b c' p LL IH E NS R0 Q|ls c seen a b c' LL IH E NS R0|ls c seen l c' LL IH E NR]; intros RO.
  - exact RI.
  - assert (E' := E). cbn [bstep] in E'. unfold do_rt in E'. destruct (rt_step H _ a b (rt c) (mg c)) as [[m' pc']| | |] eqn:S; cbn [bind] in E'; try discriminate.
    injection E' as <-. cbn [rt mg] in *. subst pc'. destruct (rt_step_prev H _ _ _ _ _ _ _ S) as [[_ F]|[F _]]; [|congruence].
    rewrite F. unfold H. cbn [h_halted sys_hooks]. unfold sys_halted. rewrite Q. reflexivity.
  - assert (E' := E). cbn [bstep] in E'. unfold do_rt in E'. destruct (rt_step H _ a b (rt c) (mg c)) as [[m' pc']| | |] eqn:S; cbn [bind] in E'; try discriminate.
    injection E' as <-. cbn [rt mg] in *. destruct (rt_step_prev H _ _ _ _ _ _ _ S) as [[F _]|[_ F]]; [congruence|].
    rewrite F. apply IH. exact (rosok_back H _ _ _ E RO).
  - assert (R1 := rosok_back H _ _ _ E RO).
    assert (I : InvB c) by (eapply (steady_inv H); [apply HP|apply HP|apply (inv_of H HP m0 RE)|exact PL|exact (look_steady _ _ _ _ LL)|exact R1]).
    destruct (step_cases H l c c' I R1 E RO) as [(a & b & -> & _)|Cl]; [destruct (NR a b eq_refl)|]. rewrite (cl_prev _ _ Cl). auto.
Qed.

(** Take any interleaving up to the moment a cycle has taken its controllers and is about to read the hardware ([c]), let that
    cycle read it ([c1]) and go on, with anything interleaved, until the realtime thread is idle again ([c2]): the running
    controllers were restarted, each once, in execution order and before any update, exactly if some motor was halted when the
    last cycle looked ([seen]) and none is now ([p]). *)
Theorem C94_restart_after_halt : forall m0 ls c seen p a b c1 ls' c2, starts p0 m0 -> remembers_initial_halt s p0 m0 ->
  conc_look H p0 m0 ls c seen -> outside_labels ls -> rt c = RBegin -> sy_plant (world (mg c)) = Ok p ->
  bstep H (LRt a b) c = Some (Ok c1) -> same_cycle H c1 ls' c2 -> rt c2 = RIdle -> rosok c2 = true ->
  exists again pubs body tail, cyc c2 = body ++ tail /\ forallb is_pub pubs = true /\ cycle_body (snap c2) again pubs body /\
    (tail = [] \/ exists stops starts, tail = stop_evs stops ++ start_evs starts ++ [EvSwitchDone]) /\
    (again = true <-> motors_halted s seen /\ ~ motors_halted s (pl_mem p)).
Proof.
  intros m0 ls c seen p a b c1 ls' c2 ST RI LL OL RB Q E SC R2 RO.
  destruct (fine_history dbg P L HL urdf config g hw mem0 s p0 HI HU tick cb pm pj HC m0 m0 ST (hist_init H m0)) as (RE & _).
  assert (PL : please m0 = false) by (destruct ST as (IN & _); apply IN).
  assert (S := look_steady _ _ _ _ LL). assert (RK : rosok c1 = true).
  { clear - SC RO. induction SC; auto. apply IHSC. eapply rosok_back; eauto. }
  assert (R0 := rosok_back H _ _ _ E RK). pose proof (clook_prev _ _ _ _ ST RE PL RI LL R0) as PV.
  destruct (fine_steps dbg P L HL urdf config g hw mem0 s p0 HI HU tick cb pm pj HC m0 _ c ST (steady_runs m0 _ c S) OL) as (p' & Q' & F).
  assert (p' = p) by congruence. subst p'. clear Q'.
  assert (IB : InvB c) by (eapply (steady_inv H); [apply HP|apply HP|apply (inv_of H HP m0 RE)|exact PL|exact S|exact R0]).
  assert (NS : ~ stale_start c) by (intros (_ & y & Ry & _); congruence).
  set (dec := isHalted s seen && negb (isHalted s (pl_mem p))).
  assert (DR : do_rt H a b c = Ok c1) by (cbn [bstep] in E; congruence).
  assert (DC : rt c1 = if dec then RRestart 0 else RUpdate 0).
  { unfold do_rt in DR. rewrite RB in DR. cbn [rt_step] in DR. unfold rt_must_restart in DR.
    destruct (pre_plant dbg P hw s p0 tick cb pm pj (mg c) p Q F) as (p1 & B1 & A1). fold H in B1.
    assert (HH : h_halted H (world (rt_pre H (mg c))) = isHalted s (pl_mem p)).
    { unfold H at 1. cbn [h_halted sys_hooks]. unfold sys_halted. rewrite B1. apply isHalted_same. intros q. now rewrite A1. }
    assert (PP : prev_halted (rt_pre H (mg c)) = isHalted s seen).
    { rewrite <- PV. apply pre_prev. }
    rewrite HH, PP in DR. unfold dec. destruct (isHalted s (pl_mem p)), (isHalted s seen); cbn [negb andb bind] in DR |- *; injection DR as <-; reflexivity. }
  assert (C0 : cyc_ok (fun x _ => x = dec) c).
  { pose proof (cycle_history H (proj1 HP) (proj2 HP) m0 ls c (inv_of H HP m0 RE) PL S R0) as Y. unfold cyc_ok in Y |- *. rewrite RB in Y |- *. exact Y. }
  assert (C1 : cyc_ok (fun x _ => x = dec) c1).
  { eapply (cyc_rt H); [apply HP|apply HP|exact IB|exact NS|exact DR| |exact C0]. intros _ _. rewrite DC. destruct dec; split; congruence. }
  destruct (one_cycle H HP m0 (ls ++ [LRt a b]) c1 dec ls' c2 RE PL) as (_ & _ & C2 & CN); auto.
  { eapply steady_snoc; eauto. }
  { rewrite DC. destruct dec; exact Logic.I. }
  unfold cyc_ok in C2. rewrite R2 in C2. destruct C2 as [C2|C2].
  - exfalso. apply CN; [|exact C2]. destruct (do_rt_desc H (proj1 HP) (proj2 HP) a b c c1 IB NS DR) as (evs & TT & D & _ & _ & _ & _ & Sn).
    unfold rt_desc in D. rewrite RB in D, Sn. destruct D as (_ & _ & -> & _). destruct Sn as [_ ->]. intros Y. apply app_eq_nil in Y. destruct Y. discriminate.
  - destruct C2 as (again & pubs & body & tail & E1 & E2 & E3 & -> & E4). exists dec, pubs, body, tail. repeat (split; [assumption|]).
    rewrite <- !isHalted_spec. unfold dec. destruct (isHalted s seen), (isHalted s (pl_mem p)); cbn [negb andb]; intuition congruence.
Qed.
End Halt.

(** ** Example: the controller of C91_ex is loaded and started; a motor halts between two steps of the realtime thread, a cycle
    sees it, and in the middle of that cycle the motor is enabled again; the next cycle restarts the controller. *)
Section Run.
Context {Tr T X : Type} {N : Num T} (H : hooks (sysw Tr T X)).
Fixpoint lrun (ls : list (label (sysw Tr T X))) (c : config (sysw Tr T X)) (seen : mem T) : option (config (sysw Tr T X) * mem T) :=
  match ls with
  | [] => Some (c, seen)
  | l :: ls' =>
    match bstep H l c with
    | Some (Ok c') =>
      match l with
      | LRt _ _ => if staleb c then None else
          match rt c' with
          | RUpdate 0 => match sy_plant (world (mg c')) with Ok p => lrun ls' c' (pl_mem p) | _ => None end
          | _ => lrun ls' c' seen
          end
      | _ => lrun ls' c' seen
      end
    | _ => None
    end
  end.
Lemma lrun_look p0 m0 : forall ls c seen c' seen' ls0, lrun ls c seen = Some (c', seen') -> conc_look H p0 m0 ls0 c seen ->
  conc_look H p0 m0 (ls0 ++ ls) c' seen'.
Proof.
  induction ls as [|l ls IH]; intros c seen c' seen' ls0 E LL; cbn [lrun] in E.
  - injection E as <- <-. now rewrite app_nil_r.
  - replace (ls0 ++ l :: ls) with ((ls0 ++ [l]) ++ ls) by (rewrite <- app_assoc; reflexivity).
    destruct (bstep H l c) as [[c1| | |]|] eqn:Eb; try discriminate.
    destruct l as [a b|k|k srv pr| | | |f]; try (eapply IH; [exact E|]; eapply clook_other; eauto; discriminate).
    destruct (staleb c) eqn:Es; [discriminate|]. apply staleb_spec in Es.
    destruct (rt c1) as [|x| |i|i|[|i]| | |t| | |ps|ps|] eqn:R1.
    6: { destruct (sy_plant (world (mg c1))) as [p| | |] eqn:Q; try discriminate. eapply IH; [exact E|]. eapply clook_now; eauto. }
    all: eapply IH; [exact E|]; eapply clook_realtime; eauto; congruence.
Qed.
Fixpoint crun (ls : list (label (sysw Tr T X))) (c : config (sysw Tr T X)) : option (config (sysw Tr T X)) :=
  match ls with
  | [] => Some c
  | l :: ls' => match rt c with RIdle => None | _ => match bstep H l c with Some (Ok c') => crun ls' c' | _ => None end end
  end.
Lemma crun_cycle c0 : forall ls c c' ls0, crun ls c = Some c' -> same_cycle H c0 ls0 c -> same_cycle H c0 (ls0 ++ ls) c'.
Proof.
  induction ls as [|l ls IH]; intros c c' ls0 E SC; cbn [crun] in E.
  - injection E as <-. now rewrite app_nil_r.
  - replace (ls0 ++ l :: ls) with ((ls0 ++ [l]) ++ ls) by (rewrite <- app_assoc; reflexivity).
    assert (Y : rt c <> RIdle /\ match bstep H l c with Some (Ok c') => crun ls c' | _ => None end = Some c') by (destruct (rt c); split; (congruence || exact E)).
    destruct Y as [NI Y]. destruct (bstep H l c) as [[c1| | |]|] eqn:Eb; try discriminate. eapply IH; [exact Y|]. eapply cycle_snoc; eauto.
Qed.
(** the three parts of the theorem: up to RBegin, the step, the rest of the cycle *)
Definition three (ls : list (label (sysw Tr T X))) (l : label (sysw Tr T X)) (ls' : list (label (sysw Tr T X))) m0 seen0 :=
  match lrun ls (quiet m0) seen0 with
  | Some (c, seen) => match bstep H l c with
                      | Some (Ok c1) => match crun ls' c1 with Some c2 => Some (c, seen, c1, c2) | None => None end
                      | _ => None end
  | None => None
  end.
(** what the examples look at *)
Definition look_at (s : rstate) (v : config (sysw Tr T X) * mem T * config (sysw Tr T X) * config (sysw Tr T X)) :=
  let '(c, seen, c1, c2) := v in
  (rt c, isHalted s seen, match sy_plant (world (mg c)) with Ok p => Some (isHalted s (pl_mem p)) | _ => None end, rt c2, rosok c2, firstn 7 (cyc c2)).
Lemma three_split s ls l ls' m0 seen0 pc b1 b2 pc2 b3 evs :
  match three ls l ls' m0 seen0 with Some v => Some (look_at s v) | None => None end = Some (pc, b1, Some b2, pc2, b3, evs) ->
  exists c seen p c1 c2, lrun ls (quiet m0) seen0 = Some (c, seen) /\ bstep H l c = Some (Ok c1) /\ crun ls' c1 = Some c2 /\
    rt c = pc /\ isHalted s seen = b1 /\ sy_plant (world (mg c)) = Ok p /\ isHalted s (pl_mem p) = b2 /\ rt c2 = pc2 /\ rosok c2 = b3 /\ firstn 7 (cyc c2) = evs.
Proof.
  unfold three. destruct (lrun ls (quiet m0) seen0) as [[c seen]|]; [|discriminate].
  destruct (bstep H l c) as [[c1| | |]|] eqn:B; try discriminate. destruct (crun ls' c1) as [c2|] eqn:D; [|discriminate].
  unfold look_at. destruct (sy_plant (world (mg c))) as [p| | |] eqn:Q; try discriminate. intros E. remember (firstn 7 (cyc c2)) as x. injection E as E1 E2 E3 E4 E5 E6.
  exists c, seen, p, c1, c2. repeat (split; [first [assumption|reflexivity]|]). congruence.
Qed.
End Run.
Section Example.
Context {G : Trig B64}.
Local Open Scope string_scope.
Local Open Scope list_scope.
Notation exb_label := (label (sysw (transmission B64) B64 Z)).
Definition exz_rt : exb_label := LRt true true.
Definition exz_ls : list exb_label :=
  times 4 [exz_rt] ++ [LStart 0 false (PCall (CLoad exEnv "a") (fun _ => PEnd))] ++ times 4 [LTh 0] ++ times 4 [exz_rt] ++ times 2 [LTh 0] ++
  times 4 [exz_rt] ++ times 3 [LTh 0] ++ [LStart 1 true (switch_service ["a"] [] STRICT)] ++ times 7 [LTh 1] ++ times 30 [exz_rt] ++
  [LEnv (set_motor true)] ++ times 5 [exz_rt] ++ [LEnv (set_motor false)] ++ times 4 [exz_rt].
(* during the cycle that restarts the controller a motor halts again: this cycle does not notice *)
Definition exz_ls' : list exb_label := times 2 [exz_rt] ++ [LEnv (set_motor true)] ++ times 8 [exz_rt].
Definition exz := three exb_hooks exz_ls exz_rt exz_ls' exh0 (pl_mem exb_plant).
Lemma exz_runs : exists c seen p c1 c2,
  lrun exb_hooks exz_ls (quiet exh0) (pl_mem exb_plant) = Some (c, seen) /\ bstep exb_hooks exz_rt c = Some (Ok c1) /\ crun exb_hooks exz_ls' c1 = Some c2 /\
  rt c = RBegin /\ isHalted exb_state seen = true /\ sy_plant (world (mg c)) = Ok p /\ isHalted exb_state (pl_mem p) = false /\
  rt c2 = RIdle /\ rosok c2 = true /\
  firstn 7 (cyc c2) = [EvPropagate; EvZero; EvCb 0 CbStopping; EvCb 0 CbStarting; EvCb 0 CbUpdate; EvEnforce; EvEffort].
Proof.
  apply (three_split exb_hooks exb_state). vm_compute. reflexivity.
Qed.
Lemma outside_times n (l : exb_label) : match l with LEnv f => outside f | _ => True end -> outside_labels (times n [l]).
Proof. intros F. induction n as [|n IH]; [constructor|]. constructor; [exact F|exact IH]. Qed.
Lemma outside_app (a b : list exb_label) : outside_labels a -> outside_labels b -> outside_labels (a ++ b).
Proof. intros A B. apply Forall_app. split; assumption. Qed.
Lemma outside_one (l : exb_label) : match l with LEnv f => outside f | _ => True end -> outside_labels [l].
Proof. intros F. constructor; [exact F|constructor]. Qed.
Lemma exz_labels : outside_labels exz_ls /\ outside_labels exz_ls'.
Proof.
  pose proof (fun n => outside_times n exz_rt Logic.I) as RT. pose proof (fun n k => outside_times n (LTh k) Logic.I) as TH.
  pose proof (fun b => outside_one (LEnv (set_motor b)) (set_motor_outside b)) as EN. split.
  - exact (outside_app _ _ (RT 4) (outside_app _ _ (outside_one (LStart 0 false _) Logic.I) (outside_app _ _ (TH 4 0) (outside_app _ _ (RT 4) (outside_app _ _ (TH 2 0)
      (outside_app _ _ (RT 4) (outside_app _ _ (TH 3 0) (outside_app _ _ (outside_one (LStart 1 true _) Logic.I) (outside_app _ _ (TH 7 1) (outside_app _ _ (RT 30)
      (outside_app _ _ (EN true) (outside_app _ _ (RT 5) (outside_app _ _ (EN false) (RT 4)))))))))))))).
  - exact (outside_app _ _ (RT 2) (outside_app _ _ (EN true) (RT 8))).
Qed.
Example C94_ex : exists c seen p c1 c2, conc_look exb_hooks exb_plant exh0 exz_ls c seen /\ bstep exb_hooks exz_rt c = Some (Ok c1) /\
  same_cycle exb_hooks c1 exz_ls' c2 /\ sy_plant (world (mg c)) = Ok p /\ motors_halted exb_state seen /\ ~ motors_halted exb_state (pl_mem p) /\
  firstn 7 (cyc c2) = [EvPropagate; EvZero; EvCb 0 CbStopping; EvCb 0 CbStarting; EvCb 0 CbUpdate; EvEnforce; EvEffort] /\
  exists pubs body tail, cyc c2 = body ++ tail /\ forallb is_pub pubs = true /\ cycle_body (snap c2) true pubs body.
Proof.
  destruct exz_runs as (c & seen & p & c1 & c2 & RL & RB & RC & E1 & E2 & E3 & E4 & E5 & E6 & E7). exists c, seen, p, c1, c2.
  assert (LL : conc_look exb_hooks exb_plant exh0 exz_ls c seen) by exact (lrun_look exb_hooks exb_plant exh0 exz_ls (quiet exh0) _ c seen [] RL (clook_init exb_hooks exb_plant exh0)).
  assert (SC : same_cycle exb_hooks c1 exz_ls' c2) by exact (crun_cycle exb_hooks c1 exz_ls' c1 c2 [] RC (cycle_nil exb_hooks c1)).
  apply isHalted_spec in E2. assert (NH : ~ motors_halted exb_state (pl_mem p)) by (rewrite <- isHalted_spec; congruence).
  repeat (split; [assumption|]). destruct exh_initial as [ST RI].
  destruct (C94_restart_after_halt true exb_P exb_L exb_new exb_urdf exb_root nzero ex_hw exb_mem exb_state exb_plant exb_loaded exb_usable exd_tick exd_cb 45%Z 25%Z exb_cb_keeps
              ltac:(split; reflexivity) exh0 exz_ls c seen p true true c1 exz_ls' c2 ST RI LL (proj1 exz_labels) E1 E3 RB SC E5 E6)
    as (again & pubs & body & tail & C1 & C2 & C3 & _ & C5). exists pubs, body, tail.
  assert (again = true) as -> by (apply C5; split; assumption). repeat split; assumption.
Qed.
End Example.
