(** C06-C08: the controller object. *)
From Coq Require Import List String Bool ZArith Lia.
From Verif.Model Require Import Base Controller.
From Verif.Spec Require Import ControllerSpec.
Import ListNotations.
Open Scope string_scope.
Open Scope list_scope.

Lemma do_requests_app rs1 : forall rs2 o,
  do_requests (rs1 ++ rs2) o =
  let '(b1, c1, o1) := do_requests rs1 o in
  let '(b2, c2, o2) := do_requests rs2 o1 in (b1 ++ b2, c1 ++ c2, o2).
Proof.
  induction rs1 as [|r rs1 IH]; intros rs2 o; simpl.
  - destruct (do_requests rs2 o) as [[? ?] ?]; reflexivity.
  - destruct (do_request r o) as [[b c] o1]. rewrite IH.
    destruct (do_requests rs1 o1) as [[b1 c1] o2].
    destruct (do_requests rs2 o2) as [[b2 c2] o3]. now rewrite app_assoc.
Qed.

(** invariant linking the trace so far with the state *)
Definition tr_inv (tr : list callback) (s : cstate) : Prop :=
  init_first tr /\ update_only_started tr /\
  (s = CONSTRUCTED <-> ~ In (CbInit true) tr) /\ (s = RUNNING <-> started tr).

Lemma snoc_split {A} (l : list A) a pre x post :
  l ++ [a] = pre ++ x :: post ->
  (pre = l /\ x = a /\ post = []) \/ (exists post', l = pre ++ x :: post').
Proof.
  destruct post as [|y post] using rev_ind; intros H.
  - apply app_inj_tail in H. destruct H; auto.
  - right. rewrite app_comm_cons, app_assoc in H. apply app_inj_tail in H. destruct H as [-> _]. eauto.
Qed.

Lemma started_snoc_other tr cb :
  cb <> CbStarting -> cb <> CbStopping -> (started (tr ++ [cb]) <-> started tr).
Proof.
  intros H1 H2. split.
  - intros (p1 & p2 & E & Hn). destruct p2 as [|y p2 _] using rev_ind.
    + apply app_inj_tail in E. destruct E as [_ E]. congruence.
    + rewrite app_comm_cons, app_assoc in E. apply app_inj_tail in E. destruct E as [-> ->].
      exists p1, p2. split; auto. intros Hin. apply Hn, in_or_app. now left.
  - intros (p1 & p2 & -> & Hn). exists p1, (p2 ++ [cb]). split.
    + now rewrite <- app_assoc.
    + intros Hin. apply in_app_iff in Hin. destruct Hin as [Hin|[Hin|[]]]; auto.
Qed.

Lemma started_snoc_start tr : started (tr ++ [CbStarting]).
Proof. exists tr, []. split; auto. Qed.

Lemma started_snoc_stop tr : ~ started (tr ++ [CbStopping]).
Proof.
  intros (p1 & p2 & E & Hn). destruct p2 as [|y p2 _] using rev_ind.
  - apply app_inj_tail in E. destruct E as [_ E]. discriminate.
  - rewrite app_comm_cons, app_assoc in E. apply app_inj_tail in E. destruct E as [-> <-].
    apply Hn, in_or_app. right. now left.
Qed.

Lemma init_first_snoc tr cb : init_first tr ->
  match cb with CbInit _ => ~ In (CbInit true) tr | _ => In (CbInit true) tr end ->
  init_first (tr ++ [cb]).
Proof.
  intros H Hc pre x post E. apply snoc_split in E. destruct E as [(-> & -> & _)|(q & ->)]; auto.
  apply (H _ _ _ eq_refl).
Qed.

Lemma update_snoc tr cb : update_only_started tr -> (cb = CbUpdate -> started tr) ->
  update_only_started (tr ++ [cb]).
Proof.
  intros H Hc pre post E. apply snoc_split in E. destruct E as [(-> & E & _)|(q & ->)].
  - apply Hc. now symmetry.
  - apply (H _ _ eq_refl).
Qed.

Lemma In_snoc_ne (tr : list callback) cb x : x <> cb -> (In x (tr ++ [cb]) <-> In x tr).
Proof. intros Hne. rewrite in_app_iff. simpl. intuition congruence. Qed.

Lemma tr_inv_request r tr s d :
  tr_inv tr s ->
  let '(_, cbs, (s', _)) := do_request r (s, d) in tr_inv (tr ++ cbs) s'.
Proof.
  intros (Hi & Hu & Hc & Hr).
  assert (Hnil : tr_inv (tr ++ []) s) by (rewrite app_nil_r; repeat split; tauto).
  assert (Hinit : s <> CONSTRUCTED -> In (CbInit true) tr).
  { intros H. destruct (in_dec (fun a b : callback => ltac:(decide equality; apply bool_dec)) (CbInit true) tr); tauto. }
  destruct r as [prov pr| | |]; simpl.
  - unfold initRequest. destruct s; try exact Hnil.
    pose proof (proj1 Hc eq_refl) as Hno.
    assert (Hns : ~ started tr) by (intros H; apply Hr in H; discriminate).
    destruct (run_init prov pr d) as [[[|]|] d'].
    + split; [apply init_first_snoc; auto|]. split; [apply update_snoc; auto; discriminate|].
      rewrite started_snoc_other by discriminate. split.
      * split; [discriminate|]. intros H. exfalso. apply H, in_or_app. right. now left.
      * split; [discriminate|tauto].
    + split; [apply init_first_snoc; auto|]. split; [apply update_snoc; auto; discriminate|].
      rewrite started_snoc_other, In_snoc_ne by discriminate. tauto.
    + split; [apply init_first_snoc; auto|]. split; [apply update_snoc; auto; discriminate|].
      rewrite started_snoc_other, In_snoc_ne by discriminate. tauto.
  - destruct s; simpl; try exact Hnil;
      (split; [apply init_first_snoc; auto; apply Hinit; discriminate|];
       split; [apply update_snoc; auto; discriminate|];
       rewrite In_snoc_ne by discriminate;
       split; [split; [discriminate|intros H; exfalso; apply H, Hinit; discriminate]|];
       split; [intros _; apply started_snoc_start|reflexivity]).
  - destruct s; simpl; try exact Hnil;
      (split; [apply init_first_snoc; auto; apply Hinit; discriminate|];
       split; [apply update_snoc; auto; discriminate|];
       rewrite In_snoc_ne by discriminate;
       split; [split; [discriminate|intros H; exfalso; apply H, Hinit; discriminate]|];
       split; [discriminate|intros H; exfalso; revert H; apply started_snoc_stop]).
  - destruct s; simpl; try exact Hnil.
    split; [apply init_first_snoc; auto; apply Hinit; discriminate|].
    split; [apply update_snoc; auto; intros _; now apply Hr|].
    rewrite started_snoc_other, In_snoc_ne by discriminate. tauto.
Qed.

Lemma tr_inv_requests rs : forall tr s d,
  tr_inv tr s ->
  let '(_, cbs, (s', _)) := do_requests rs (s, d) in tr_inv (tr ++ cbs) s'.
Proof.
  induction rs as [|r rs IH]; intros tr s d H; cbn [do_requests].
  - now rewrite app_nil_r.
  - pose proof (tr_inv_request r tr s d H) as H1.
    destruct (do_request r (s, d)) as [[b cbs] [s1 d1]].
    specialize (IH _ _ d1 H1). destruct (do_requests rs (s1, d1)) as [[bs cbs'] [s2 d2]].
    rewrite <- app_assoc in IH. exact IH.
Qed.

Lemma tr_inv_new : tr_inv [] CONSTRUCTED.
Proof.
  split; [intros [|? ?] ? ? E; discriminate|]. split; [intros [|? ?] ? E; discriminate|].
  split; [split; auto|]. split; [discriminate|]. intros ([|? ?] & ? & E & _); discriminate.
Qed.

(** C06: the callback protocol holds along every history of requests on a fresh controller. *)
Theorem C06_callback_protocol :
  forall (rs : list request) bs tr o,
    do_requests rs new_obj = (bs, tr, o) ->
    init_first tr /\ update_only_started tr.
Proof.
  intros rs bs tr [s d] H. pose proof (tr_inv_requests rs [] CONSTRUCTED no_deps tr_inv_new) as Hi.
  fold new_obj in Hi. rewrite H in Hi. split; apply Hi.
Qed.

(** ... and isRunning() is exactly "started and not stopped since". *)
Theorem C06_isRunning_iff_started :
  forall (rs : list request) bs tr s d,
    do_requests rs new_obj = (bs, tr, (s, d)) ->
    isRunning s = true <-> started tr.
Proof.
  intros rs bs tr s d H. pose proof (tr_inv_requests rs [] CONSTRUCTED no_deps tr_inv_new) as Hi.
  fold new_obj in Hi. rewrite H in Hi. simpl in Hi.
  destruct Hi as (_ & _ & _ & Hr). rewrite <- Hr. destruct s; simpl; split; congruence.
Qed.

Example C06_nonvacuous :
  let '(bs, tr, o) := do_requests
     [RUpdate; RStart; RInit None (IRet false); RInit None (IRet true); RUpdate; RStart; RUpdate; RStop; RUpdate] new_obj in
  tr = [CbInit false; CbInit true; CbStarting; CbUpdate; CbStopping].
Proof. reflexivity. Qed.

(** The state of a controller after a history, and whether it has been initialised. *)
Definition initialised_by (tr : list callback) : Prop := In (CbInit true) tr.

(** C07: results of the requests after an arbitrary history [rs]. *)
Theorem C07_start_stop_results :
  forall (rs : list request) bs tr s d,
    do_requests rs new_obj = (bs, tr, (s, d)) ->
    (* start: *)
    (initialised_by tr ->
       exists s', do_request RStart (s, d) = (Some true, [CbStarting], (s', d)) /\ isRunning s' = true) /\
    (~ initialised_by tr -> do_request RStart (s, d) = (Some false, [], (s, d))) /\
    (* stop: *)
    (initialised_by tr ->
       exists s', do_request RStop (s, d) = (Some true, [CbStopping], (s', d)) /\ isRunning s' = false) /\
    (~ initialised_by tr -> do_request RStop (s, d) = (Some false, [], (s, d))) /\
    (* update: *)
    (started tr -> do_request RUpdate (s, d) = (None, [CbUpdate], (s, d))) /\
    (~ started tr -> do_request RUpdate (s, d) = (None, [], (s, d))) /\
    (* init: refused, without running user code, once it has succeeded *)
    (initialised_by tr -> forall prov pr, do_request (RInit prov pr) (s, d) = (Some false, [], (s, d))).
Proof.
  intros rs bs tr s d H. pose proof (tr_inv_requests rs [] CONSTRUCTED no_deps tr_inv_new) as Hi.
  fold new_obj in Hi. rewrite H in Hi. simpl in Hi. destruct Hi as (_ & _ & Hc & Hr).
  unfold initialised_by.
  assert (Hst : started tr \/ ~ started tr).
  { destruct s; [right|right|left; now apply Hr]; intros E; apply Hr in E; discriminate. }
  destruct s; simpl.
  - pose proof (proj1 Hc eq_refl). repeat split; try tauto; try (intros; eexists; eauto; tauto).
    intros E. apply Hr in E. discriminate.
  - assert (HI : ~ ~ In (CbInit true) tr) by (intros E; apply Hc in E; discriminate).
    repeat split; try tauto; try (intros; eexists; split; reflexivity).
    intros E. apply Hr in E. discriminate.
  - assert (HI : ~ ~ In (CbInit true) tr) by (intros E; apply Hc in E; discriminate).
    repeat split; try tauto; try (intros; eexists; split; reflexivity).
Qed.

Example C07_nonvacuous : exists bs tr s d,
  do_requests [RInit None (IRet true); RStart] new_obj = (bs, tr, (s, d)) /\ started tr.
Proof. do 4 eexists. split; [reflexivity|]. exists [CbInit true], []. split; [reflexivity|intros []]. Qed.

(** The calls an init program makes against a provider, with arguments and results. *)
Fixpoint init_calls (prov : option provider) (pr : iprog) : list (string * Z * (string -> bool) * bool) :=
  match pr with
  | IRet _ | IThrow => []
  | IGet name sched cast k =>
      let '(b, p, _) := getController prov name sched cast no_deps in
      (name, sched, cast, b) :: init_calls prov (k b p)
  end.

(** C08, part 1: when getController returns true. *)
Theorem C08_getController_result :
  forall prov name sched cast d b p d',
    getController prov name sched cast d = (b, p, d') ->
    b = true <->
    exists pr q ty, prov = Some pr /\ pr name = Some (q, ty) /\ cast ty = true /\
                 (sched = BEFORE_ME \/ sched = AFTER_ME).
Proof.
  intros prov name sched cast d b p d' H. unfold getController, getControllerByName_as in H.
  destruct prov as [pr|].
  2:{ inversion H; subst. split; [discriminate|]. intros (? & ? & ? & E & _). discriminate. }
  destruct (pr name) as [[q ty]|] eqn:Hp.
  2:{ inversion H; subst. split; [discriminate|]. intros (? & ? & ? & E & E' & _). congruence. }
  destruct (cast ty) eqn:Hc.
  2:{ inversion H; subst. split; [discriminate|]. intros (? & ? & ? & E & E' & E'' & _). congruence. }
  destruct (Z.eqb_spec sched BEFORE_ME); [|destruct (Z.eqb_spec sched AFTER_ME)]; inversion H; subst.
  - split; auto. intros _. exists pr, q, ty. auto.
  - split; auto. intros _. exists pr, q, ty. auto.
  - split; [discriminate|]. intros (? & ? & ? & _ & _ & _ & [E|E]); congruence.
Qed.

(** C08, part 2: after init, the recorded dependencies are exactly the granted calls, in order,
    split by the scheduling argument; and the pointer remembered for each is the provider's. *)
Theorem C08_recorded_dependencies :
  forall prov pr ir d',
    run_init prov pr no_deps = (ir, d') ->
    d_before d' = map (fun c => fst (fst (fst c)))
                   (filter (fun c => snd c && (snd (fst (fst c)) =? BEFORE_ME)%Z) (init_calls prov pr)) /\
    d_after d' = map (fun c => fst (fst (fst c)))
                   (filter (fun c => snd c && (snd (fst (fst c)) =? AFTER_ME)%Z) (init_calls prov pr)) /\
    map fst (d_got d') = map (fun c => fst (fst (fst c))) (filter snd (init_calls prov pr)) /\
    (forall name p, In (name, p) (d_got d') ->
        exists f ty, prov = Some f /\ f name = Some (p, ty)).
Proof.
  intros prov pr.
  assert (Hgen : forall d ir d', run_init prov pr d = (ir, d') ->
    d_before d' = d_before d ++ map (fun c => fst (fst (fst c)))
                   (filter (fun c => snd c && (snd (fst (fst c)) =? BEFORE_ME)%Z) (init_calls prov pr)) /\
    d_after d' = d_after d ++ map (fun c => fst (fst (fst c)))
                   (filter (fun c => snd c && (snd (fst (fst c)) =? AFTER_ME)%Z) (init_calls prov pr)) /\
    map fst (d_got d') = map fst (d_got d) ++ map (fun c => fst (fst (fst c))) (filter snd (init_calls prov pr)) /\
    (forall name p, In (name, p) (d_got d') -> In (name, p) (d_got d) \/
        exists f ty, prov = Some f /\ f name = Some (p, ty))).
  { induction pr as [b| |name sched cast k IH]; intros d ir d' H; simpl in *.
    - inversion H; subst. rewrite !app_nil_r. auto.
    - inversion H; subst. rewrite !app_nil_r. auto.
    - unfold getController, getControllerByName_as in *.
      destruct prov as [f|]; [|simpl in *; now apply IH in H].
      destruct (f name) as [[q ty]|] eqn:Hf; [|simpl in *; now apply IH in H].
      destruct (cast ty); [|simpl in *; now apply IH in H].
      destruct (Z.eqb_spec sched BEFORE_ME); [|destruct (Z.eqb_spec sched AFTER_ME)].
      + subst. apply IH in H. simpl in *. destruct H as (H1 & H2 & H3 & H4).
        rewrite H1, H2, H3, map_app, <- !app_assoc. repeat split; auto.
        intros n p Hin. apply H4 in Hin. rewrite in_app_iff in Hin. simpl in Hin.
        destruct Hin as [[Hin|[Hin|[]]]|Hin]; auto. inversion Hin; subst. eauto.
      + subst. apply IH in H. simpl in *. destruct H as (H1 & H2 & H3 & H4).
        rewrite H1, H2, H3, map_app, <- !app_assoc. repeat split; auto.
        intros n' p Hin. apply H4 in Hin. rewrite in_app_iff in Hin. simpl in Hin.
        destruct Hin as [[Hin|[Hin|[]]]|Hin]; auto. inversion Hin; subst. eauto.
      + apply IH in H. simpl in *. exact H. }
  intros ir d' H. apply Hgen in H. simpl in H. destruct H as (H1 & H2 & H3 & H4).
  repeat split; auto. intros name p Hin. apply H4 in Hin. tauto.
Qed.

Example C08_nonvacuous :
  let prov := Some (fun n => if String.eqb n "a" then Some (3, "T") else None) in
  run_init prov
     (IGet "a" BEFORE_ME (fun _ => true) (fun _ _ => IGet "b" AFTER_ME (fun _ => true) (fun b _ =>
      IGet "a" AFTER_ME (String.eqb "T") (fun _ _ => IRet true)))) no_deps
  = (InitRet true, mkDeps ["a"] ["a"] [("a", 3); ("a", 3)]).
Proof. reflexivity. Qed.

(** Observation: with an invalid scheduling argument the caller already holds the pointer although
    the call returns false and no dependency protects it. *)
Theorem C08_invalid_sched_leaks_pointer :
  forall pr name sched cast d q ty,
    pr name = Some (q, ty) -> cast ty = true -> sched <> BEFORE_ME -> sched <> AFTER_ME ->
    getController (Some pr) name sched cast d = (false, Some q, d).
Proof.
  intros pr name sched cast d q ty Hp Hc H1 H2. unfold getController, getControllerByName_as.
  rewrite Hp, Hc. apply Z.eqb_neq in H1, H2. now rewrite H1, H2.
Qed.

Print Assumptions C06_callback_protocol.
Print Assumptions C06_isRunning_iff_started.
Print Assumptions C07_start_stop_results.
Print Assumptions C08_getController_result.
Print Assumptions C08_recorded_dependencies.
