(** C01-C05: the execution order computed by scheduleControllers. *)
From Coq Require Import List String Arith Sorting.Permutation Relations.Relation_Operators Lia.
From Verif.Model Require Import Base Scheduler.
From Verif.Spec Require Import SchedulerSpec.
From Verif.Proofs Require Import SchedulerProofs Topo.
Import ListNotations.
Open Scope string_scope.
Open Scope list_scope.

(** A concrete, non-trivial set of controllers used to show the hypotheses are met:
    "grip" runs before "arm" (BEFORE_ME) and after it comes "log" (AFTER_ME). *)
Definition ex_controllers : list spec :=
  [ mkSpec "log" [] []; mkSpec "grip" [] []; mkSpec "arm" ["grip"] ["log"] ].

Example ex_runs : scheduleControllers ex_controllers [7; 7] = SchedOk [1; 2; 0].
Proof. reflexivity. Qed.

Example ex_unique : NoDup (names ex_controllers).
Proof. repeat constructor; simpl; intuition discriminate. Qed.

(** C01 *)
Theorem C01_schedule_is_permutation :
  forall (c : list spec) (old s : list nat),
    NoDup (names c) ->
    scheduleControllers c old = SchedOk s ->
    Permutation s (seq 0 (List.length c)).
Proof.
  intros c old s Hnd Hs. pose proof (schedule_correct c old Hnd) as H. rewrite Hs in H.
  destruct H as (Hl & Hf & o & Ho & _ & Hin & Hadm & _).
  assert (Hnds : NoDup s).
  { assert (Hndo : NoDup o) by (eapply Permutation_NoDup; [apply Permutation_sym, Hadm|exact Hnd]).
    assert (Hm : NoDup (order_of c s)).
    { rewrite Ho. apply FinFun.Injective_map_NoDup; auto. intros x y E; congruence. }
    unfold order_of in Hm. now apply NoDup_map_inv in Hm. }
  apply NoDup_Permutation_bis; auto.
  - rewrite seq_length. lia.
  - intros i Hi. rewrite Forall_forall in Hf. apply in_seq. specialize (Hf _ Hi). lia.
Qed.

Example C01_nonvacuous : exists s, scheduleControllers ex_controllers [] = SchedOk s.
Proof. eexists; reflexivity. Qed.

(** C02: in terms of positions in the cycle: if [x] has to precede [y] then the controller at
    some position [i] is [x], the one at a later position [j] is [y]. *)
Theorem C02_schedule_respects_constraints :
  forall (c : list spec) (old s : list nat) (x y : string),
    NoDup (names c) ->
    scheduleControllers c old = SchedOk s ->
    must_precede c x y ->
    exists i j ix jy, i < j /\ nth_error s i = Some ix /\ nth_error s j = Some jy /\
      nth_error (names c) ix = Some x /\ nth_error (names c) jy = Some y.
Proof.
  intros c old s x y Hnd Hs Hm. pose proof (schedule_correct c old Hnd) as H. rewrite Hs in H.
  destruct H as (Hl & Hf & o & Ho & _ & _ & (_ & Hadm) & _).
  destruct (Hadm _ _ Hm) as (i & j & Hij & Hi & Hj).
  assert (Hpos : forall p z, nth_error o p = Some z ->
     exists iz, nth_error s p = Some iz /\ nth_error (names c) iz = Some z).
  { intros p z Hp. assert (Hq : nth_error (order_of c s) p = Some (Some z)).
    { rewrite Ho, nth_error_map, Hp. reflexivity. }
    unfold order_of in Hq. rewrite nth_error_map in Hq.
    destruct (nth_error s p) as [iz|]; simpl in Hq; [|discriminate].
    inversion Hq as [Hz]. exists iz. split; auto. unfold names. now rewrite nth_error_map. }
  destruct (Hpos _ _ Hi) as (ix & ? & ?). destruct (Hpos _ _ Hj) as (jy & ? & ?).
  exists i, j, ix, jy. auto.
Qed.

Example C02_nonvacuous :
  must_precede ex_controllers "grip" "arm" /\ must_precede ex_controllers "arm" "log".
Proof.
  split.
  - left. exists (mkSpec "arm" ["grip"] ["log"]). simpl. auto.
  - right. exists (mkSpec "arm" ["grip"] ["log"]). simpl. auto.
Qed.

(** C03 *)
Theorem C03_schedule_succeeds_iff_possible :
  forall (c : list spec) (old : list nat),
    NoDup (names c) ->
    (exists s, scheduleControllers c old = SchedOk s) <->
    (after_refs_loaded c /\ exists o, admissible c o).
Proof.
  intros c old Hnd. pose proof (schedule_correct c old Hnd) as H. split.
  - intros (s & Hs). rewrite Hs in H.
    destruct H as (_ & _ & o & _ & _ & _ & Ha & Haf). eauto.
  - intros Hp. destruct (scheduleControllers c old) as [s|s| |]; try tauto; eauto.
Qed.

(** both directions are inhabited: a satisfiable set, an unsatisfiable (cyclic) one *)
Example C03_positive : exists s, scheduleControllers ex_controllers [] = SchedOk s.
Proof. eexists; reflexivity. Qed.
Example C03_cycle_fails :
  scheduleControllers [ mkSpec "a" ["b"] []; mkSpec "b" ["a"] [] ] [] = SchedFail [0; 0].
Proof. reflexivity. Qed.
Example C03_after_not_loaded_fails :
  scheduleControllers [ mkSpec "a" [] ["b"]; mkSpec "b" [] [] ] [] = SchedFail [0; 0].
Proof. reflexivity. Qed.

Lemma slt_not_gt x y : slt x y -> String.compare x y <> Gt.
Proof. unfold slt. congruence. Qed.

Lemma must_precede_perm c c' x y :
  Permutation c c' -> must_precede c x y -> must_precede c' x y.
Proof.
  intros Hp [(s & H1 & H2)|(s & H1 & H2)]; [left|right]; exists s; split; auto;
    eapply Permutation_in; eauto.
Qed.

(** C04, part 1: the order is the canonical one. *)
Theorem C04_schedule_is_canonical :
  forall (c : list spec) (old s : list nat),
    NoDup (names c) ->
    scheduleControllers c old = SchedOk s ->
    exists o, order_of c s = map Some o /\ canonical c o.
Proof.
  intros c old s Hnd Hs. pose proof (schedule_correct c old Hnd) as H. rewrite Hs in H.
  destruct H as (_ & _ & o & Ho & Hg & _). exists o. split; auto.
  intros pre x post E. destruct (Hg _ _ _ E) as (Ha & Hm). split; auto.
  intros y Hy. destruct (Hm y Hy) as [->|Hlt].
  - rewrite compare_refl. discriminate.
  - now apply slt_not_gt.
Qed.

(** C04, part 2: hence it does not depend on the order in which controllers were loaded. *)
Theorem C04_schedule_independent_of_load_order :
  forall (c c' : list spec) (old old' s s' : list nat),
    NoDup (names c) -> Permutation c c' ->
    scheduleControllers c old = SchedOk s ->
    scheduleControllers c' old' = SchedOk s' ->
    order_of c s = order_of c' s'.
Proof.
  intros c c' old old' s s' Hnd Hp Hs Hs'.
  assert (Hpn : Permutation (names c) (names c')) by now apply Permutation_map.
  assert (Hnd' : NoDup (names c')) by (eapply Permutation_NoDup; eauto).
  pose proof (schedule_correct c old Hnd) as H. rewrite Hs in H.
  pose proof (schedule_correct c' old' Hnd') as H'. rewrite Hs' in H'.
  destruct H as (_ & _ & o & Ho & Hg & Hin & _).
  destruct H' as (_ & _ & o' & Ho' & Hg' & Hin' & _).
  rewrite Ho, Ho'. f_equal. apply greedy_unique with c; auto.
  - assert (Hav : forall d z, available c' d z <-> available c d z).
    { intros d z. unfold available. split; intros (H1 & H2 & H3); repeat split; auto.
      - eapply Permutation_in; [apply Permutation_sym|]; eauto.
      - intros y Hy. eapply H3, must_precede_perm; eauto.
      - eapply Permutation_in; eauto.
      - intros y Hy. eapply H3, must_precede_perm; [apply Permutation_sym|]; eauto. }
    intros pre x post E. destruct (Hg' _ _ _ E) as (Ha & Hm).
    split; [now apply Hav|]. intros y Hy. apply Hm. now apply Hav.
  - intros x. rewrite Hin'. split; intros Hx; [eapply Permutation_in; [apply Permutation_sym|]|eapply Permutation_in]; eauto.
Qed.

Example C04_nonvacuous :
  let c' := [ mkSpec "grip" [] []; mkSpec "log" [] []; mkSpec "arm" ["grip"] ["log"] ] in
  Permutation ex_controllers c' /\
  scheduleControllers ex_controllers [] = SchedOk [1; 2; 0] /\
  scheduleControllers c' [] = SchedOk [0; 2; 1].
Proof. repeat split. apply perm_swap. Qed.

(** C05: no out-of-bounds access, no endless loop, and the vector ends up with one slot per controller. *)
Theorem C05_schedule_memory_safe :
  forall (c : list spec) (old : list nat),
    NoDup (names c) ->
    exists s, (scheduleControllers c old = SchedOk s \/ scheduleControllers c old = SchedFail s)
              /\ List.length s = List.length c.
Proof.
  intros c old Hnd. pose proof (schedule_correct c old Hnd) as H.
  destruct (scheduleControllers c old) as [s|s| |]; try tauto; exists s; intuition.
Qed.

(** Termination alone needs no hypothesis. *)
Theorem C05_schedule_terminates :
  forall (c : list spec) (old : list nat), scheduleControllers c old <> SchedDiverge.
Proof.
  intros c old H. pose proof (schedule_master c old) as Hm. unfold scheduleControllers in *.
  destruct (build_graph c []); [|discriminate]. destruct Hm as [_ Hm].
  destruct (sched_loop _ _ _ _ _); try tauto; try discriminate.
  destruct (show_ok c schedule); discriminate.
Qed.

(** Unique names are needed: with a duplicate name a stale entry of the vector is used as an index. *)
Theorem C05_duplicate_names_read_out_of_bounds_refuted :
  exists (c : list spec) (old : list nat), ~ NoDup (names c) /\ scheduleControllers c old = SchedUB.
Proof.
  exists [mkSpec "a" [] []; mkSpec "a" [] []], [0; 5]. split; [|reflexivity].
  intros H. inversion H as [|? ? Hn _]. apply Hn. now left.
Qed.

(** The three reasons for a refusal, and no other. *)
Theorem C03_failure_explained :
  forall (c : list spec) (old s : list nat),
  NoDup (names c) ->
  scheduleControllers c old = SchedFail s ->
  ~ after_refs_loaded c \/
  (exists s0 x, In s0 c /\ In x (sp_before s0) /\ ~ In x (names c)) \/
  (exists x, In x (names c) /\ clos_trans string (must_precede c) x x).
Proof.
  intros c old s ND E. assert (AD : after_refs_loaded c \/ ~ after_refs_loaded c) by (pose proof (schedule_master c old) as M; destruct (build_graph c []); tauto).
  destruct AD as [A|A]; [|auto]. right.
  assert (AF : forall s0 a, In s0 c -> In a (sp_after s0) -> In a (names c)).
  { intros s0 a I Ia. destruct (in_split s0 c I) as (c1 & c2 & Q). pose proof (A c1 s0 c2 a Q Ia) as X. rewrite Q. unfold names in *. rewrite map_app in *. apply in_app_iff in X. apply in_app_iff. cbn in *. tauto. }
  destruct (Forall_Exists_dec (fun s0 => Forall (fun x => In x (names c)) (sp_before s0)) (fun s0 => Forall_dec _ (fun x => in_dec string_dec x (names c)) (sp_before s0)) c) as [B|B].
  - rewrite Forall_forall in B. right. destruct (admissible_or_cycle c ND) as [(o & AO)|X]; [| |exact X].
    + intros x y [(s0 & I & <- & Ix)|(s0 & I & <- & Iy)].
      * split; [|apply in_map; exact I]. specialize (B s0 I). rewrite Forall_forall in B. auto.
      * split; [apply in_map; exact I|]. eauto.
    + destruct (proj2 (C03_schedule_succeeds_iff_possible c old ND) (conj A (ex_intro _ o AO))) as (s' & E'). congruence.
  - left. apply Exists_exists in B as (s0 & I & NB). exists s0.
    apply neg_Forall_Exists_neg in NB; [|intros x; apply in_dec, string_dec]. apply Exists_exists in NB as (x & Ix & N). eauto.
Qed.
Theorem C03_failure_exactly :
  forall (c : list spec) (old : list nat),
  NoDup (names c) ->
  (exists s, scheduleControllers c old = SchedFail s) <->
  (~ after_refs_loaded c \/
   (exists s0 x, In s0 c /\ In x (sp_before s0) /\ ~ In x (names c)) \/
   (exists x, In x (names c) /\ clos_trans string (must_precede c) x x)).
Proof.
  intros c old ND. split; [intros (s & E); eapply C03_failure_explained; eauto|]. intros X.
  destruct (C05_schedule_memory_safe c old ND) as (s & [E|E] & _); [exfalso|eauto].
  destruct (proj1 (C03_schedule_succeeds_iff_possible c old ND) (ex_intro _ s E)) as (A & o & P & C).
  assert (ND' : NoDup o) by (eapply Permutation_NoDup; [apply Permutation_sym; exact P|exact ND]).
  destruct X as [N|[(s0 & x & I & Ix & N)|(x & I & t)]]; [contradiction| |].
  - apply N. eapply Permutation_in; [exact P|]. destruct (C x (sp_name s0)) as (i & j & _ & E1 & _); [left; eauto|]. eapply nth_error_In; exact E1.
  - assert (T : forall a b, clos_trans string (must_precede c) a b -> comes_before o a b).
    { clear - C ND'. induction 1 as [a b r|a b d _ (i & j & L1 & E1 & E2) _ (i' & j' & L2 & E3 & E4)]; [auto|].
      assert (j = i') by (eapply (proj1 (NoDup_nth_error o) ND'); [apply nth_error_Some; congruence|congruence]). subst i'.
      exists i, j'. split; [lia|]. auto. }
    destruct (T x x t) as (i & j & LT & E1 & E2). assert (i = j) by (eapply (proj1 (NoDup_nth_error o) ND'); [apply nth_error_Some; congruence|congruence]). lia.
Qed.

Example C03_failure_ex : exists x, In x (names [ mkSpec "a" ["b"] []; mkSpec "b" ["a"] [] ]) /\
  clos_trans string (must_precede [ mkSpec "a" ["b"] []; mkSpec "b" ["a"] [] ]) x x.
Proof.
  assert (ND : NoDup (names [ mkSpec "a" ["b"] []; mkSpec "b" ["a"] [] ])) by (repeat constructor; cbn; intuition discriminate).
  destruct (C03_failure_explained _ [] _ ND C03_cycle_fails) as [N|[(s0 & x & I & Ix & N)|X]]; [| |exact X]; exfalso.
  - apply N. intros c1 s c2 a E Ia. destruct c1 as [|? [|? [|]]]; inversion E; subst; destruct Ia.
  - apply N. cbn in *. intuition; subst; cbn in *; tauto.
Qed.

Print Assumptions C01_schedule_is_permutation.
Print Assumptions C02_schedule_respects_constraints.
Print Assumptions C03_schedule_succeeds_iff_possible.
Print Assumptions C04_schedule_is_canonical.
Print Assumptions C04_schedule_independent_of_load_order.
Print Assumptions C05_schedule_memory_safe.
Print Assumptions C05_schedule_terminates.
