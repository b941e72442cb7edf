(** Exact effect of load, unload, switch, list and reload (level A), and invariance. *)
From Coq Require Import List String Arith Bool ZArith Lia Sorting.Permutation.
From Verif.Model Require Import Base Scheduler Controller Manager.
From Verif.Spec Require Import SchedulerSpec ManagerSpec.
From Verif.Proofs Require Import SchedulerProofs ManagerProofs ManagerInv.
From Verif.Props Require Import ControllerProps.
Import ListNotations.

Lemma upd_same {A} (f : bool -> A) b x : upd f b x b = x.
Proof. unfold upd. now rewrite Bool.eqb_reflx. Qed.
Lemma upd_negb {A} (f : bool -> A) b x : upd f (negb b) x b = f b.
Proof. unfold upd. destruct b; reflexivity. Qed.

Lemma set_names_names l : forall out, List.length l = List.length out ->
  map cs_name (set_names l out) = map e_name l.
Proof.
  induction l as [|e l IH]; intros [|c out] Hl; simpl in *; try discriminate; auto.
  f_equal. apply IH. lia.
Qed.

Ltac inv_tr m I :=
  apply inv_transfer with m; simpl; auto; try (now apply I);
  try (intros; now apply (inv_state m I)); try apply (inv_used m I); try apply (inv_reqs m I);
  try apply (inv_idle m I); try apply (inv_fatal m I).

Lemma nth_error_ext' {A} (l l' : list A) : (forall j, nth_error l j = nth_error l' j) -> l = l'.
Proof.
  revert l'. induction l as [|x l IH]; intros [|y l'] E; auto.
  - specialize (E 0). discriminate.
  - specialize (E 0). discriminate.
  - f_equal.
    + specialize (E 0). simpl in E. congruence.
    + apply IH. intros j. exact (E (S j)).
Qed.

Section Ops.
Context {W : Type} (H : hooks W).
Notation mgr := (mgr W).

(* ------------------------------------------------------------------ lookup *)
Lemma find_entry_some n l e : find_entry n l = Some e -> In e l /\ e_name e = n.
Proof.
  unfold find_entry. intros E. apply find_some in E. destruct E as [Hin He].
  split; auto. now apply String.eqb_eq.
Qed.

Lemma find_entry_none n l : find_entry n l = None <-> ~ In n (map e_name l).
Proof.
  unfold find_entry. split.
  - intros E Hin. apply in_map_iff in Hin. destruct Hin as (e & <- & He).
    apply (find_none _ _ E) in He. now rewrite String.eqb_refl in He.
  - intros Hn. destruct (find _ l) eqn:E; auto. exfalso. apply find_some in E. destruct E as [Hin He].
    apply Hn. apply String.eqb_eq in He. subst. now apply in_map.
Qed.

Lemma nodup_names_inj (l : list entry) e1 e2 :
  NoDup (map e_name l) -> In e1 l -> In e2 l -> e_name e1 = e_name e2 -> e1 = e2.
Proof.
  induction l as [|e l IH]; simpl; [tauto|]. intros Hnd [->|H1] [->|H2] E; auto; inversion Hnd; subst.
  - exfalso. apply H3. rewrite E. now apply in_map.
  - exfalso. apply H3. rewrite <- E. now apply in_map.
  - auto.
Qed.

Lemma nodup_ptrs_inj (l : list entry) e1 e2 :
  NoDup (map e_ptr l) -> In e1 l -> In e2 l -> e_ptr e1 = e_ptr e2 -> e1 = e2.
Proof.
  induction l as [|e l IH]; simpl; [tauto|]. intros Hnd [->|H1] [->|H2] E; auto; inversion Hnd; subst.
  - exfalso. apply H3. rewrite E. now apply in_map.
  - exfalso. apply H3. rewrite <- E. now apply in_map.
  - auto.
Qed.

Lemma find_entry_in (l : list entry) e : NoDup (map e_name l) -> In e l -> find_entry (e_name e) l = Some e.
Proof.
  intros Hnd Hin. destruct (find_entry (e_name e) l) as [e'|] eqn:E.
  - apply find_entry_some in E. destruct E as [Hin' He]. f_equal. eapply nodup_names_inj; eauto.
  - apply find_entry_none in E. exfalso. apply E. now apply in_map.
Qed.

Lemma existsb_name n (l : list entry) :
  existsb (fun e => String.eqb (e_name e) n) l = true <-> In n (map e_name l).
Proof.
  rewrite existsb_exists, in_map_iff. split; intros (e & A & B); exists e.
  - split; auto. now apply String.eqb_eq.
  - split; auto. now apply String.eqb_eq.
Qed.

(* ------------------------------------------------------------------ load *)

(** the controller object of a fresh load *)
Definition fresh_entry (m : mgr) (name : string) : entry := mkEntry name (next m).

Lemma specs_ext (h h' : ptr -> cobj) l :
  (forall e, In e l -> co_deps (h' (e_ptr e)) = co_deps (h (e_ptr e))) -> specs h' l = specs h l.
Proof. intros E. apply map_ext_in. intros e He. unfold spec_of. now rewrite E. Qed.

Lemma run_init_deps prov pr d ir d' :
  run_init prov pr d = (ir, d') ->
  (forall n, In n (d_before d ++ d_after d) <-> In n (map fst (d_got d))) ->
  (forall n, In n (d_before d' ++ d_after d') <-> In n (map fst (d_got d'))).
Proof.
  revert d ir d'. induction pr as [b| |name sched cast k IH]; intros d ir d' E Hd; simpl in E.
  - now inversion E; subst.
  - now inversion E; subst.
  - unfold getController in E. destruct prov as [f|]; [|eapply IH; eauto].
    destruct (getControllerByName_as f cast name) as [p|]; [|eapply IH; eauto].
    destruct (Z.eqb sched BEFORE_ME); [|destruct (Z.eqb sched AFTER_ME)]; eapply IH; eauto; simpl; intros n;
      specialize (Hd n); rewrite map_app, !in_app_iff in *; simpl; intuition.
Qed.

Lemma run_init_got prov pr d ir d' :
  run_init prov pr d = (ir, d') ->
  forall n p, In (n, p) (d_got d') -> In (n, p) (d_got d) \/ exists f ty, prov = Some f /\ f n = Some (p, ty).
Proof.
  revert d ir d'. induction pr as [b| |name sched cast k IH]; intros d ir d' E n p Hin; simpl in E.
  - inversion E; subst; auto.
  - inversion E; subst; auto.
  - unfold getController in E. destruct prov as [f|]; [|eapply IH; eauto].
    unfold getControllerByName_as in E.
    destruct (f name) as [[q ty]|] eqn:Ef; [|eapply IH; eauto].
    destruct (cast ty); [|eapply IH; eauto].
    destruct (Z.eqb sched BEFORE_ME); [|destruct (Z.eqb sched AFTER_ME)];
      (eapply IH in E; [|exact Hin]); simpl in E; auto;
      destruct E as [E|E]; auto; apply in_app_iff in E; destruct E as [E|[E|[]]]; auto;
      inversion E; subst; eauto.
Qed.

(** what the provider hands out is a loaded controller *)
Lemma as_provider_in (m : mgr) n p ty : as_provider m n = Some (p, ty) -> In (mkEntry n p) (loaded m).
Proof.
  unfold as_provider, getControllerByName. fold (loaded m).
  destruct (find_entry n (loaded m)) as [e|] eqn:E; simpl; [|discriminate].
  intros X. inversion X; subst. apply find_entry_some in E. destruct E as [Hin <-].
  destruct e; exact Hin.
Qed.

Lemma app_cons_snoc {A} (l : list A) x l1 y l2 :
  l ++ [x] = l1 ++ y :: l2 ->
  (l1 = l /\ y = x /\ l2 = []) \/ (exists l2', l = l1 ++ y :: l2' /\ l2 = l2' ++ [x]).
Proof.
  destruct l2 as [|z l2] using rev_ind; intros E.
  - apply app_inj_tail in E. left. intuition.
  - right. rewrite app_comm_cons, app_assoc in E. apply app_inj_tail in E. destruct E as [-> ->]. eauto.
Qed.

Theorem load_spec env name (m : mgr) :
  Inv m -> please m = false ->
  exists a m', loadController H env name m = Ok (a, m') /\ Inv m' /\ please m' = false /\
    match a with
    | Returned true =>
        ~ In name (loaded_names m) /\
        loaded m' = loaded m ++ [fresh_entry m name] /\
        (forall e, In e (loaded m) -> heap m' (e_ptr e) = heap m (e_ptr e)) /\
        state_of m' (next m) = INITIALIZED /\
        trace m' = trace m ++ [EvCb (next m) (CbInit true)] /\
        next m' = S (next m) /\
        (exists ty pr d, construct env name = Some (Some (ty, pr)) /\
            run_init (Some (as_provider m)) pr no_deps = (InitRet true, d) /\
            heap m' (next m) = mkObj ty INITIALIZED d new_stats)
    | _ => same_controllers m m' /\
           (trace m' = trace m \/ exists b, trace m' = trace m ++ [EvCb (next m) (CbInit b)])
    end.
Proof.
  intros I Hpl. destruct (inv_idle m I Hpl) as [Hr1 Hr2].
  unfold loadController, load_body. fold (loaded m).
  set (f := free_list m).
  assert (Hf : f = negb (cur m)) by reflexivity.
  set (m1 := set_lists (upd (lists m) f (loaded m)) m).
  (* every rejecting exit before anything is constructed *)
  assert (Hlow : forall m', (exists ls, m' = set_lists (upd (lists m) f ls) m) ->
     Inv m' /\ please m' = false /\ same_controllers m m' /\
     (trace m' = trace m \/ exists b, trace m' = trace m ++ [EvCb (next m) (CbInit b)])).
  { intros m' (ls & ->).
    assert (El : loaded (set_lists (upd (lists m) f ls) m) = loaded m).
    { unfold loaded. simpl. rewrite Hf. apply upd_negb. }
    split; [|split; [exact Hpl|split; [split; [exact El|simpl; auto]|now left]]].
    inv_tr m I. }
  assert (Hcl : set_lists (upd (lists m1) f []) m1 = set_lists (upd (upd (lists m) f (loaded m)) f []) m) by reflexivity.
  assert (Hupd2 : forall m', m' = set_lists (upd (lists m1) f []) m1 ->
     Inv m' /\ please m' = false /\ same_controllers m m' /\
     (trace m' = trace m \/ exists b, trace m' = trace m ++ [EvCb (next m) (CbInit b)])).
  { intros m' ->.
    assert (El : loaded (set_lists (upd (lists m1) f []) m1) = loaded m).
    { unfold loaded. simpl. rewrite Hf, !upd_negb. reflexivity. }
    split; [|split; [exact Hpl|split; [split; [exact El|simpl; auto]|now left]]].
    inv_tr m I. }
  destruct (existsb (fun e => String.eqb (e_name e) name) (loaded m)) eqn:Hdup.
  { exists (Returned false). eexists. split; [reflexivity|]. destruct (Hupd2 _ eq_refl) as (A&B&C&D). auto. }
  destruct (negb (pe_node_ok env name)).
  { exists (Returned false). eexists. split; [reflexivity|].
    destruct (Hlow m1) as (A&B&C&D); [eexists; reflexivity|]. auto. }
  destruct (construct env name) as [[[ty pr]|]|] eqn:Hc.
  2:{ exists (Returned false). eexists. split; [reflexivity|]. destruct (Hupd2 _ eq_refl) as (A&B&C&D). auto. }
  2:{ exists Exception. eexists. split; [reflexivity|].
      destruct (Hlow m1) as (A&B&C&D); [eexists; reflexivity|]. auto. }
  (* constructed *)
  set (p := next m1). assert (Hp : p = next m) by reflexivity.
  assert (Hprov : as_provider m1 = as_provider m).
  { unfold as_provider, getControllerByName. simpl. rewrite Hf, upd_negb. reflexivity. }
  rewrite Hprov.
  assert (Hnotp : forall e, In e (loaded m) -> Nat.eqb (e_ptr e) p = false).
  { intros e He. apply Nat.eqb_neq. pose proof (inv_lt m I e He). lia. }
  (* a general rejecting exit after construction *)
  assert (Hlate : forall obj cbs sc m2,
     m2 = calls H p cbs (set_next (S p) (set_heap (upd_heap (heap m1) p obj) m1)) ->
     (cbs = [] \/ exists b, cbs = [CbInit b]) ->
     let m' := set_lists (upd (lists m2) f []) (set_scheds (upd (scheds m2) f sc) m2) in
     Inv m' /\ please m' = false /\ same_controllers m m' /\
     (trace m' = trace m \/ exists b, trace m' = trace m ++ [EvCb (next m) (CbInit b)])).
  { intros obj cbs sc m2 Em2 Hcbs m'.
    destruct (calls_spec H p cbs (set_next (S p) (set_heap (upd_heap (heap m1) p obj) m1)))
      as (E1&E2&E3&E4&E5&E6&E7&E8&E9&E10&E11&E12&E13&E14).
    rewrite <- Em2 in *. simpl in *.
    assert (El : loaded m' = loaded m).
    { unfold loaded, m'. simpl. rewrite E5, E3, Hf, !upd_negb. reflexivity. }
    assert (Es : scheds m' (cur m') = scheds m (cur m)).
    { unfold m'. simpl. rewrite E5, E4, Hf, upd_negb. reflexivity. }
    assert (Eh : forall e, In e (loaded m) -> heap m' (e_ptr e) = heap m (e_ptr e)).
    { intros e He. unfold m'. simpl. rewrite E1. unfold upd_heap. now rewrite Hnotp. }
    assert (Et : trace m' = trace m \/ exists b, trace m' = trace m ++ [EvCb (next m) (CbInit b)]).
    { unfold m'. simpl. rewrite E14. destruct Hcbs as [->|(b & ->)]; simpl.
      - left. apply app_nil_r.
      - right. exists b. reflexivity. }
    split; [|split; [|split; [|exact Et]]].
    - apply inv_transfer with m; auto.
      + unfold m'. simpl. rewrite E2. lia.
      + intros e He. now rewrite Eh.
      + intros e He. unfold state_of. rewrite Eh by auto. now apply (inv_state m I).
      + unfold m'. simpl. rewrite E6, E5. apply (inv_used m I).
      + unfold m'. simpl. rewrite E7, E8. apply (inv_reqs m I).
      + unfold m'. simpl. rewrite E7, E8, E9. apply (inv_idle m I).
      + unfold m'. simpl. rewrite E11. reflexivity.
      + destruct Et as [->|(b & ->)]; [apply (inv_fatal m I)|]. rewrite in_app_iff. simpl.
        pose proof (inv_fatal m I). intuition discriminate.
    - unfold m'. simpl. rewrite E9. exact Hpl.
    - split; [exact El|split; [exact Es|split; [exact Eh|]]]. unfold m'. simpl. now rewrite E11. }
  unfold initRequest.
  assert (Hlate' : forall obj cbs,
     (cbs = [] \/ exists b, cbs = [CbInit b]) ->
     let m2 := calls H p cbs (set_next (S p) (set_heap (upd_heap (heap m1) p obj) m1)) in
     let m' := set_lists (upd (lists m2) f []) m2 in
     Inv m' /\ please m' = false /\ same_controllers m m' /\
     (trace m' = trace m \/ exists b, trace m' = trace m ++ [EvCb (next m) (CbInit b)])).
  { intros obj cbs Hcbs m2 m'.
    destruct (calls_spec H p cbs (set_next (S p) (set_heap (upd_heap (heap m1) p obj) m1)))
      as (E1&E2&E3&E4&E5&E6&E7&E8&E9&E10&E11&E12&E13&E14).
    fold m2 in E1,E2,E3,E4,E5,E6,E7,E8,E9,E10,E11,E12,E13,E14. simpl in *.
    assert (El : loaded m' = loaded m).
    { unfold loaded, m'. simpl. rewrite E5, E3, Hf, !upd_negb. reflexivity. }
    assert (Es : scheds m' (cur m') = scheds m (cur m)).
    { unfold m'. simpl. rewrite E5, E4. reflexivity. }
    assert (Eh : forall e, In e (loaded m) -> heap m' (e_ptr e) = heap m (e_ptr e)).
    { intros e He. unfold m'. simpl. rewrite E1. unfold upd_heap. now rewrite Hnotp. }
    assert (Et : trace m' = trace m \/ exists b, trace m' = trace m ++ [EvCb (next m) (CbInit b)]).
    { unfold m'. simpl. rewrite E14. destruct Hcbs as [->|(b & ->)]; simpl.
      - left. apply app_nil_r.
      - right. exists b. reflexivity. }
    split; [|split; [|split; [|exact Et]]].
    - apply inv_transfer with m; auto.
      + unfold m'. simpl. rewrite E2. lia.
      + intros e He. now rewrite Eh.
      + intros e He. unfold state_of. rewrite Eh by auto. now apply (inv_state m I).
      + unfold m'. simpl. rewrite E6, E5. apply (inv_used m I).
      + unfold m'. simpl. rewrite E7, E8. apply (inv_reqs m I).
      + unfold m'. simpl. rewrite E7, E8, E9. apply (inv_idle m I).
      + unfold m'. simpl. rewrite E11. reflexivity.
      + destruct Et as [->|(b & ->)]; [apply (inv_fatal m I)|]. rewrite in_app_iff. simpl.
        pose proof (inv_fatal m I). intuition discriminate.
    - unfold m'. simpl. rewrite E9. exact Hpl.
    - split; [exact El|split; [exact Es|split; [exact Eh|]]]. unfold m'. simpl. now rewrite E11. }
  destruct (run_init (Some (as_provider m)) pr no_deps) as [[[|]|] d] eqn:Hrun.
  2:{ cbv zeta. exists (Returned false). eexists. split; [reflexivity|].
      destruct (Hlate' (mkObj ty CONSTRUCTED d new_stats) [CbInit false] (or_intror (ex_intro _ _ eq_refl))) as (A&B&C&D); auto. }
  2:{ cbv zeta. exists (Returned false). eexists. split; [reflexivity|].
      destruct (Hlate' (mkObj ty CONSTRUCTED d new_stats) [CbInit false] (or_intror (ex_intro _ _ eq_refl))) as (A&B&C&D); auto. }
  cbv zeta.
  set (m2 := calls H p [CbInit true] _).
  destruct (calls_spec H p [CbInit true] (set_next (S p) (set_heap (upd_heap (heap m1) p (mkObj ty INITIALIZED d new_stats)) m1)))
      as (E1&E2&E3&E4&E5&E6&E7&E8&E9&E10&E11&E12&E13&E14).
  fold m2 in E1,E2,E3,E4,E5,E6,E7,E8,E9,E10,E11,E12,E13,E14.
  assert (Em2 : m2 = calls H p [CbInit true] (set_next (S p) (set_heap (upd_heap (heap m1) p (mkObj ty INITIALIZED d new_stats)) m1))) by reflexivity.
  clearbody m2.
  cbn [heap next lists scheds cur used start_req stop_req please mstats trace set_next set_heap m1 set_lists map] in E1,E2,E3,E4,E5,E6,E7,E8,E9,E11,E14.
  set (to := loaded m ++ [mkEntry name p]).
  assert (Hnew : ~ In name (map e_name (loaded m))).
  { intros Hin. apply existsb_name in Hin. congruence. }
  assert (Hnd : NoDup (map e_name to)).
  { unfold to. rewrite map_app. apply NoDup_snoc; [apply I|exact Hnew]. }
  pose proof (schedule_correct (specs (heap m2) to) (scheds m2 f)) as Hsc.
  rewrite names_specs in Hsc. specialize (Hsc Hnd).
  destruct (scheduleControllers (specs (heap m2) to) (scheds m2 f)) as [s|s| |] eqn:Hsch; try tauto.
  2:{ exists (Returned false). eexists. split; [reflexivity|].
      destruct (Hlate (mkObj ty INITIALIZED d new_stats) [CbInit true] s m2 Em2 (or_intror (ex_intro _ _ eq_refl))) as (A&B&C&D); auto. }
  (* success *)
  set (m3 := set_scheds (upd (scheds m2) f s) (set_lists (upd (lists m2) f to) m2)).
  exists (Returned true), (commit m3). split; [reflexivity|].
  assert (Hcur : cur (commit m3) = f).
  { unfold commit. simpl. rewrite E5. reflexivity. }
  assert (Hl3 : loaded (commit m3) = to).
  { unfold loaded, commit, clear_former. simpl. rewrite E5.
    rewrite upd_negb. rewrite Hf. apply upd_same. }
  assert (Hs3 : scheds (commit m3) (cur (commit m3)) = s).
  { rewrite Hcur. unfold commit. simpl. apply upd_same. }
  assert (Hh3 : heap (commit m3) = heap m2) by reflexivity.
  assert (Hho : forall e, In e (loaded m) -> heap m2 (e_ptr e) = heap m (e_ptr e)).
  { intros e He. rewrite E1. unfold upd_heap. now rewrite Hnotp. }
  assert (Hhp : heap m2 p = mkObj ty INITIALIZED d new_stats).
  { rewrite E1. unfold upd_heap. now rewrite Nat.eqb_refl. }
  assert (Ht3 : trace (commit m3) = trace m ++ [EvCb p (CbInit true)]).
  { unfold commit. simpl. rewrite E14. reflexivity. }
  assert (Hinv : Inv (commit m3)).
  { constructor.
    - rewrite Hl3. exact Hnd.
    - rewrite Hl3. unfold to. rewrite map_app. apply NoDup_snoc; [apply I|].
      simpl. intros Hin. apply in_map_iff in Hin. destruct Hin as (e & He & Hin).
      pose proof (inv_lt m I e Hin). lia.
    - rewrite Hl3. intros e He. apply in_app_iff in He.
      assert (Hn : next (commit m3) = S p) by (unfold commit; simpl; exact E2).
      rewrite Hn. destruct He as [He|[<-|[]]]; [pose proof (inv_lt m I e He); lia|simpl; lia].
    - rewrite Hl3, Hs3, Hh3. exists (scheds m2 f). exact Hsch.
    - rewrite Hl3. unfold state_of. rewrite Hh3. intros e He. apply in_app_iff in He.
      destruct He as [He|[<-|[]]].
      + rewrite Hho by auto. now apply (inv_state m I).
      + simpl. rewrite Hhp. discriminate.
    - rewrite Hl3. unfold handed_out. rewrite Hh3. unfold to. intros l1 e l2 E n q Hin.
      apply app_cons_snoc in E. destruct E as [(-> & -> & _)|(l2' & E & _)].
      + simpl in Hin. rewrite Hhp in Hin. simpl in Hin.
        destruct (run_init_got _ _ _ _ _ Hrun n q Hin) as [[]|(f' & ty' & Ef & Efn)].
        inversion Ef; subst f'. eapply as_provider_in; eauto.
      + assert (He : In e (loaded m)) by (rewrite E; apply in_or_app; right; now left).
        rewrite Hho in Hin by auto. eapply (inv_deps m I); eauto.
    - rewrite Hl3. unfold dep_names, handed_out. rewrite Hh3. intros e n He. apply in_app_iff in He.
      destruct He as [He|[<-|[]]].
      + rewrite Hho by auto. now apply (inv_got m I).
      + simpl. rewrite Hhp. simpl. apply (run_init_deps _ _ _ _ _ Hrun). simpl. tauto.
    - rewrite Hcur. unfold commit. simpl. rewrite E5, E6. destruct (used m); auto.
    - unfold commit. simpl. rewrite E7, E8. rewrite Hr1, Hr2. intros q [].
    - unfold commit. simpl. rewrite E7, E8, Hr1, Hr2. auto.
    - rewrite Hl3. unfold commit, resize_stats. cbn [mstats clear_former set_lists rt_moved_on set_used flip set_cur set_mstats].
      unfold free_list. simpl cur. simpl lists. rewrite E5. rewrite <- Hf, upd_same.
      apply set_names_names. now rewrite resize_length.
    - rewrite Ht3, in_app_iff. simpl. pose proof (inv_fatal m I). intuition discriminate. }
  split; [exact Hinv|]. split; [unfold commit; simpl; rewrite E9; exact Hpl|].
  split; [exact Hnew|]. split; [exact Hl3|]. split; [rewrite Hh3; exact Hho|].
  split; [unfold state_of; rewrite Hh3; change (next m) with p; rewrite Hhp; reflexivity|].
  split; [exact Ht3|]. split; [unfold commit; simpl; exact E2|].
  exists ty, pr, d. split; [reflexivity|]. split; [exact Hrun|]. rewrite Hh3. exact Hhp.
Qed.

(* ------------------------------------------------------------------ unload *)
Definition others (n : string) (l : list entry) : list entry :=
  filter (fun e => negb (String.eqb (e_name e) n)) l.

Lemma transfer_spec h n l :
  transfer h n l =
    if existsb (fun e => String.eqb (e_name e) n && isRunning (co_state (h (e_ptr e)))) l then None
    else Some (existsb (fun e => String.eqb (e_name e) n) l, others n l).
Proof.
  induction l as [|e l IH]; simpl; auto. rewrite IH.
  destruct (String.eqb (e_name e) n); simpl.
  - destruct (isRunning (co_state (h (e_ptr e)))); simpl; auto.
    destruct (existsb _ l); auto.
  - destruct (existsb (fun e0 => String.eqb (e_name e0) n && isRunning (co_state (h (e_ptr e0)))) l); auto.
Qed.

Lemma depends_on_iff (m : mgr) n : 
  existsb (depends_on (heap m) n) (loaded m) = true <-> has_dependent m n.
Proof.
  rewrite existsb_exists. unfold has_dependent, depends_on, dep_names.
  split; intros (e & He & Hd); exists e; split; auto.
  - rewrite in_app_iff. apply orb_true_iff in Hd. destruct Hd as [Hd|Hd]; [left|right];
      apply existsb_exists in Hd; destruct Hd as (x & Hx & E); apply String.eqb_eq in E; now subst.
  - apply in_app_iff in Hd. apply orb_true_iff. destruct Hd as [Hd|Hd]; [left|right];
      apply existsb_exists; exists n; split; auto; apply String.eqb_refl.
Qed.

Lemma others_specs h n l :
  specs h (others n l) = filter (fun s => negb (String.eqb (sp_name s) n)) (specs h l).
Proof.
  unfold others, specs. induction l as [|e l IH]; simpl; auto.
  destruct (String.eqb (e_name e) n); simpl; congruence.
Qed.

Lemma others_NoDup {A} (f : entry -> A) n l : NoDup (map f l) -> NoDup (map f (others n l)).
Proof.
  unfold others. induction l as [|e l IH]; simpl; intros Hnd; auto. inversion Hnd; subst.
  destruct (negb (String.eqb (e_name e) n)); simpl; auto. constructor; auto.
  intros Hin. apply H2. apply in_map_iff in Hin. destruct Hin as (x & <- & Hx).
  apply filter_In in Hx. apply in_map. tauto.
Qed.

Lemma others_split n l l1 e l2 :
  others n l = l1 ++ e :: l2 -> exists k1 k2, l = k1 ++ e :: k2 /\ l1 = others n k1.
Proof.
  revert l1. induction l as [|x l IH]; intros l1 E; simpl in E.
  - destruct l1; discriminate.
  - destruct (negb (String.eqb (e_name x) n)) eqn:Hx.
    + destruct l1 as [|y l1]; simpl in E; inversion E; subst.
      * exists [], l. auto.
      * destruct (IH l1 H2) as (k1 & k2 & -> & ->). exists (y :: k1), k2. simpl. rewrite Hx. auto.
    + destruct (IH l1 E) as (k1 & k2 & -> & ->). exists (x :: k1), k2. simpl. rewrite Hx. auto.
Qed.

(** rescheduling after removal succeeds (C13) *)
Lemma reschedule_ok (m : mgr) n old :
  Inv m -> ~ has_dependent m n ->
  exists s, scheduleControllers (specs (heap m) (others n (loaded m))) old = SchedOk s.
Proof.
  intros I Hnd.
  pose proof (schedule_correct (specs (heap m) (others n (loaded m))) old) as Hc.
  rewrite names_specs in Hc. specialize (Hc (others_NoDup e_name n _ (inv_names m I))).
  destruct (scheduleControllers (specs (heap m) (others n (loaded m))) old) as [s|s| |]; try tauto; eauto.
  exfalso. destruct Hc as (_ & Hc). apply Hc. split.
  - intros c1 s0 c2 a E Ha.
    assert (exists l1 e l2, others n (loaded m) = l1 ++ e :: l2 /\ c1 = specs (heap m) l1 /\ s0 = spec_of (heap m) e) as
      (l1 & e & l2 & El & -> & ->).
    { clear -E. revert c1 E. induction (others n (loaded m)) as [|x l IH]; intros c1 E; simpl in E.
      - destruct c1; discriminate.
      - destruct c1 as [|y c1]; simpl in E; inversion E; subst.
        + exists [], x, l. auto.
        + destruct (IH c1 H1) as (l1 & e & l2 & -> & -> & ->). exists (x :: l1), e, l2. auto. }
    destruct (others_split _ _ _ _ _ El) as (k1 & k2 & Ek & ->).
    assert (He : In e (loaded m)) by (rewrite Ek; apply in_or_app; right; now left).
    simpl in Ha.
    assert (Hdep : In a (dep_names m (e_ptr e))) by (unfold dep_names; apply in_or_app; now right).
    pose proof Hdep as Hdep'. apply (inv_got m I e a He) in Hdep. apply in_map_iff in Hdep.
    destruct Hdep as ([a' p] & Ea & Hin). simpl in Ea. subst a'.
    pose proof (inv_deps m I k1 e k2 Ek a p Hin) as Hk1.
    unfold names. rewrite map_app. apply in_or_app. left. fold (names (specs (heap m) (others n k1))).
    rewrite names_specs. apply (in_map e_name (others n k1) (mkEntry a p)).
    unfold others. apply filter_In. split; auto. simpl.
    destruct (String.eqb_spec a n); auto. subst a. exfalso. apply Hnd. exists e. auto.
  - destruct (inv_sched m I) as (old' & E').
    pose proof (schedule_correct (specs (heap m) (loaded m)) old') as Hc'.
    rewrite names_specs in Hc'. specialize (Hc' (inv_names m I)). rewrite E' in Hc'.
    destruct Hc' as (_ & _ & o & _ & _ & _ & Hadm & _).
    eexists. rewrite others_specs. apply admissible_remove with (1 := Hadm).
    intros s0 Hs _. unfold specs in Hs. apply in_map_iff in Hs. destruct Hs as (e & <- & He). simpl.
    split; intros Hin; apply Hnd; exists e; split; auto; unfold dep_names; apply in_or_app; auto.
Qed.

Lemma existsb_running (m : mgr) n :
  existsb (fun e => String.eqb (e_name e) n && isRunning (co_state (heap m (e_ptr e)))) (loaded m) = true
  <-> exists e, In e (loaded m) /\ e_name e = n /\ running m (e_ptr e).
Proof.
  rewrite existsb_exists. split; intros (e & He & X); exists e; split; auto.
  - apply andb_true_iff in X. destruct X as [X1 X2]. apply String.eqb_eq in X1. split; auto.
    unfold running. destruct (co_state (heap m (e_ptr e))); try discriminate; auto.
  - destruct X as [<- X]. rewrite String.eqb_refl. unfold running in X. now rewrite X.
Qed.

Theorem unload_spec name (m : mgr) :
  Inv m -> please m = false ->
  exists b m', unloadController name m = Ok (Returned b, m') /\ Inv m' /\ please m' = false /\
    trace m' = trace m /\ next m' = next m /\ heap m' = heap m /\
    (b = true <-> (exists e, In e (loaded m) /\ e_name e = name /\ ~ running m (e_ptr e)) /\ ~ has_dependent m name) /\
    (if b then loaded m' = others name (loaded m) else same_controllers m m').
Proof.
  intros I Hpl. destruct (inv_idle m I Hpl) as [Hr1 Hr2].
  unfold unloadController, unload_body. fold (loaded m).
  set (f := free_list m). assert (Hf : f = negb (cur m)) by reflexivity.
  assert (Hrej : forall sc, let m' := set_lists (upd (lists m) f []) (set_scheds sc m) in
     (sc (cur m) = scheds m (cur m)) ->
     Inv m' /\ please m' = false /\ trace m' = trace m /\ next m' = next m /\ heap m' = heap m /\ same_controllers m m').
  { intros sc m' Esc.
    assert (El : loaded m' = loaded m).
    { unfold loaded, m'. simpl. rewrite Hf. apply upd_negb. }
    split; [|repeat split; auto].
    inv_tr m I. }
  assert (Hrej0 : let m' := set_lists (upd (lists m) f []) m in
     Inv m' /\ please m' = false /\ trace m' = trace m /\ next m' = next m /\ heap m' = heap m /\ same_controllers m m').
  { apply (Hrej (scheds m) eq_refl). }
  destruct (existsb (depends_on (heap m) name) (loaded m)) eqn:Hdep.
  { exists false. eexists. split; [reflexivity|]. destruct Hrej0 as (A&B&C&D&E&F).
    do 5 (split; [assumption|]). split; [|exact F].
    split; [discriminate|]. intros [_ Hn]. exfalso. apply Hn. now apply depends_on_iff. }
  assert (Hnd : ~ has_dependent m name).
  { intros X. apply depends_on_iff in X. congruence. }
  rewrite transfer_spec.
  destruct (existsb (fun e => String.eqb (e_name e) name && isRunning (co_state (heap m (e_ptr e)))) (loaded m)) eqn:Hrun.
  { exists false. eexists. split; [reflexivity|]. destruct Hrej0 as (A&B&C&D&E&F).
    do 5 (split; [assumption|]). split; [|exact F].
    split; [discriminate|]. intros [(e & He & En & Hn) _]. exfalso.
    apply existsb_running in Hrun. destruct Hrun as (e' & He' & En' & Hr').
    assert (e = e') as -> by (eapply nodup_names_inj; [apply (inv_names m I)|auto|auto|congruence]). auto. }
  destruct (existsb (fun e => String.eqb (e_name e) name) (loaded m)) eqn:Hex.
  2:{ exists false. eexists. split; [reflexivity|]. destruct Hrej0 as (A&B&C&D&E&F).
    do 5 (split; [assumption|]). split; [|exact F].
    split; [discriminate|]. intros [(e & He & En & Hn) _]. exfalso.
    assert (In name (map e_name (loaded m))) by (rewrite <- En; now apply in_map).
    apply existsb_name in H0. congruence. }
  destruct (reschedule_ok m name (scheds m f) I Hnd) as (s & Hs). rewrite Hs.
  set (to := others name (loaded m)) in *.
  set (m3 := set_scheds (upd (scheds m) f s) (set_lists (upd (lists m) f to) m)).
  exists true, (commit m3). split; [reflexivity|].
  assert (Hcur : cur (commit m3) = f) by reflexivity.
  assert (Hl3 : loaded (commit m3) = to).
  { unfold loaded, commit, clear_former. simpl. rewrite upd_negb. fold f. apply upd_same. }
  assert (Hs3 : scheds (commit m3) (cur (commit m3)) = s).
  { rewrite Hcur. unfold commit. simpl. apply upd_same. }
  assert (Hin : forall e, In e to -> In e (loaded m)).
  { intros e He. apply filter_In in He. tauto. }
  assert (Hinv : Inv (commit m3)).
  { constructor.
    - rewrite Hl3. apply others_NoDup, I.
    - rewrite Hl3. apply others_NoDup, I.
    - rewrite Hl3. intros e He. apply (inv_lt m I). auto.
    - rewrite Hl3, Hs3. exists (scheds m f). exact Hs.
    - rewrite Hl3. intros e He. apply (inv_state m I). auto.
    - rewrite Hl3. intros l1 e l2 E n q Hq. destruct (others_split _ _ _ _ _ E) as (k1 & k2 & Ek & ->).
      unfold others. apply filter_In. split; [eapply (inv_deps m I); eauto|]. simpl.
      destruct (String.eqb_spec n name); auto. subst n. exfalso. apply Hnd. exists e.
      assert (He : In e (loaded m)) by (rewrite Ek; apply in_or_app; right; now left).
      split; auto. apply (inv_got m I e name He). apply (in_map fst) in Hq. exact Hq.
    - rewrite Hl3. intros e n He. apply (inv_got m I). auto.
    - rewrite Hcur. unfold commit. simpl. destruct (used m); auto.
    - unfold commit. simpl. rewrite Hr1, Hr2. intros q [].
    - unfold commit. simpl. auto.
    - rewrite Hl3. unfold commit, resize_stats. cbn [mstats clear_former set_lists rt_moved_on set_used flip set_cur set_mstats].
      unfold free_list. simpl cur. simpl lists. fold (free_list m). fold f. rewrite upd_same.
      apply set_names_names. now rewrite resize_length.
    - apply (inv_fatal m I). }
  split; [exact Hinv|]. split; [exact Hpl|]. split; [reflexivity|]. split; [reflexivity|]. split; [reflexivity|].
  split; [|exact Hl3].
  split; auto. intros _. split; auto.
  apply existsb_name in Hex. apply in_map_iff in Hex. destruct Hex as (e & En & He).
  exists e. split; auto. split; auto. intros Hr.
  assert (X : exists e, In e (loaded m) /\ e_name e = name /\ running m (e_ptr e)) by eauto.
  apply existsb_running in X. congruence.
Qed.

(* ------------------------------------------------------------------ switch *)
Lemma lookup_spec (m : mgr) n : Inv m ->
  match getControllerByName m n with
  | Some p => In (mkEntry n p) (loaded m)
  | None => ~ In n (loaded_names m)
  end.
Proof.
  intros I. unfold getControllerByName. fold (loaded m).
  destruct (find_entry n (loaded m)) as [e|] eqn:E; simpl.
  - apply find_entry_some in E. destruct E as [Hin <-]. destruct e; exact Hin.
  - now apply find_entry_none.
Qed.

Lemma lookup_in (m : mgr) n p : Inv m -> In (mkEntry n p) (loaded m) -> getControllerByName m n = Some p.
Proof.
  intros I Hin. unfold getControllerByName. fold (loaded m).
  pose proof (find_entry_in (loaded m) _ (inv_names m I) Hin) as E. simpl in E. rewrite E. reflexivity.
Qed.

(** the objects of the loaded controllers among a list of names, in order *)
Definition resolve (m : mgr) (ns : list string) : list ptr :=
  flat_map (fun n => match getControllerByName m n with Some p => [p] | None => [] end) ns.

Lemma collect_spec (m : mgr) strict ns :
  collect m strict ns =
    if strict && negb (forallb (fun n => match getControllerByName m n with Some _ => true | None => false end) ns)
    then None else Some (resolve m ns).
Proof.
  unfold resolve. induction ns as [|n ns IH]; simpl.
  - now rewrite andb_false_r.
  - rewrite IH. destruct (getControllerByName m n); simpl.
    + destruct (strict && negb _); reflexivity.
    + destruct strict; reflexivity.
Qed.

Lemma resolve_in (m : mgr) ns p : Inv m -> In p (resolve m ns) <-> exists n, In n ns /\ In (mkEntry n p) (loaded m).
Proof.
  intros I. unfold resolve. rewrite in_flat_map. split.
  - intros (n & Hn & Hp). pose proof (lookup_spec m n I) as Hl.
    destruct (getControllerByName m n); [|destruct Hp]. destruct Hp as [->|[]]. eauto.
  - intros (n & Hn & Hin). exists n. split; auto. rewrite (lookup_in m n p I Hin). now left.
Qed.

Definition all_loaded (m : mgr) (ns : list string) : Prop := forall n, In n ns -> In n (loaded_names m).

Lemma all_loaded_b (m : mgr) ns : Inv m ->
  forallb (fun n => match getControllerByName m n with Some _ => true | None => false end) ns = true
  <-> all_loaded m ns.
Proof.
  intros I. rewrite forallb_forall. unfold all_loaded. split; intros X n Hn; specialize (X n Hn);
    pose proof (lookup_spec m n I) as Hl; destruct (getControllerByName m n); auto; try discriminate.
  - unfold loaded_names. now apply (in_map e_name) in Hl.
Qed.

Lemma all_loaded_dec (m : mgr) ns : Inv m -> all_loaded m ns \/ ~ all_loaded m ns.
Proof.
  intros I. rewrite <- (all_loaded_b m ns I). destruct (forallb _ ns); [now left|right; discriminate].
Qed.

Theorem switch_request_spec start stop strictness (m : mgr) :
  Inv m -> please m = false ->
  (strictness = STRICT /\ ~ (all_loaded m start /\ all_loaded m stop) /\
     exists m', switch_body start stop strictness m = Rejected m' /\ Inv m' /\
       same_controllers m m' /\ please m' = false /\ start_req m' = [] /\ stop_req m' = [] /\
       heap m' = heap m /\ trace m' = trace m) \/
  (~ (strictness = STRICT /\ ~ (all_loaded m start /\ all_loaded m stop)) /\
     exists m', switch_body start stop strictness m = Ready m' /\ Inv m' /\
       same_controllers m m' /\ please m' = true /\
       start_req m' = resolve m start /\ stop_req m' = resolve m stop /\
       heap m' = heap m /\ trace m' = trace m /\ world m' = world m /\ prev_halted m' = prev_halted m).
Proof.
  intros I Hpl. destruct (inv_idle m I Hpl) as [Hr1 Hr2].
  unfold switch_body.
  set (strict := Z.eqb (if Z.eqb strictness 0 then BEST_EFFORT else strictness) STRICT).
  assert (Hst : strict = true <-> strictness = STRICT).
  { unfold strict. destruct (Z.eqb_spec strictness 0); subst.
    - split; discriminate.
    - apply Z.eqb_eq. }
  rewrite collect_spec.
  assert (Hcoll : forall m' : mgr, lists m' = lists m -> cur m' = cur m -> 
     (forall n, getControllerByName m' n = getControllerByName m n)).
  { intros m' E1 E2 n. unfold getControllerByName. now rewrite E1, E2. }
  assert (Hall : forall ns, strict && negb (forallb (fun n => match getControllerByName m n with Some _ => true | None => false end) ns) = true
             <-> strictness = STRICT /\ ~ all_loaded m ns).
  { intros ns. rewrite andb_true_iff, Hst, negb_true_iff. rewrite <- (all_loaded_b m ns I).
    destruct (forallb _ ns); split; intros [A B]; split; auto; try congruence. }
  destruct (strict && negb (forallb _ stop)) eqn:E1.
  - left. apply Hall in E1. destruct E1 as [Es Hn]. split; auto. split; [tauto|].
    eexists. split; [reflexivity|]. split.
    + inv_tr m I. rewrite Hr1. intros p [].
    + repeat split; auto.
  - rewrite collect_spec.
    assert (Ef : forallb (fun n => match getControllerByName (set_stop_req (stop_req m ++ resolve m stop) m) n with
                                   | Some _ => true | None => false end) start =
                 forallb (fun n => match getControllerByName m n with Some _ => true | None => false end) start)
      by reflexivity.
    rewrite Ef. clear Ef.
    destruct (strict && negb (forallb _ start)) eqn:E2.
    + left. apply Hall in E2. destruct E2 as [Es Hn]. split; auto. split; [tauto|].
      eexists. split; [reflexivity|]. split.
      * inv_tr m I. intros p [].
      * repeat split; auto.
    + right. split.
      * intros [Es Hn]. apply Hn. split.
        -- destruct (all_loaded_dec m start I); auto. exfalso.
           assert (X : strictness = STRICT /\ ~ all_loaded m start) by auto. apply Hall in X. congruence.
        -- destruct (all_loaded_dec m stop I); auto. exfalso.
           assert (X : strictness = STRICT /\ ~ all_loaded m stop) by auto. apply Hall in X. congruence.
      * eexists. split; [reflexivity|]. split.
        -- inv_tr m I.
           ++ rewrite Hr1, Hr2. simpl. intros p Hp. apply in_app_iff in Hp.
              assert (exists n, In (mkEntry n p) (loaded m)) as (n & Hn).
              { destruct Hp as [Hp|Hp]; [change (In p (resolve m start)) in Hp|]; apply resolve_in in Hp; auto;
                  destruct Hp as (n & _ & Hn); eauto. }
              apply (in_map e_ptr) in Hn. exact Hn.
           ++ discriminate.
        -- simpl. rewrite Hr1, Hr2. repeat split; auto.
Qed.

(* ------------------------------------------------------------------ reachable states *)
Theorem reachable_inv (m : mgr) :
  (0 < h_per_mech H)%Z -> (0 < h_per_js H)%Z -> reachable H m -> Inv m.
Proof.
  intros Hp1 Hp2 Hr. induction Hr as [m Hi|m o a m' Hr IH Hs].
  - now apply inv_initial.
  - inversion Hs as [? env name Hpl E0|? name Hpl E0|? start stop strictness Hpl E0|? l1 l2 E0|? f|? Hpl E0]; subst.
    + destruct (load_spec env name m IH Hpl) as (a' & m'' & E & I' & _). congruence.
    + destruct (unload_spec name m IH Hpl) as (b & m'' & E & I' & _). congruence.
    + destruct (switch_request_spec start stop strictness m IH Hpl)
        as [(_ & _ & m'' & E & I' & _)|(_ & m'' & E & I' & _)]; rewrite E in *; congruence.
    + destruct (update_spec H l1 l2 m IH Hp1 Hp2) as (m'' & p1 & p2 & E & I' & _).
      rewrite E in *. cbn [bind] in *. congruence.
    + inv_tr m IH.
    + inv_tr m IH. intros X. apply in_app_iff in X. destruct X as [X|[X|[]]]; [now apply (inv_fatal m IH)|discriminate].
Qed.

(* ------------------------------------------------------------------ list *)
Lemma list_loop_spec asserts (m : mgr) :
  Inv m -> forall sched i resp,
  Forall (fun k => k < List.length (loaded m)) sched ->
  i + List.length sched <= List.length resp ->
  exists resp', list_loop asserts m (loaded_names m) sched i resp = Ok resp' /\
    List.length resp' = List.length resp /\
    (forall j, j < i -> nth_error resp' j = nth_error resp j) /\
    (forall j k, nth_error sched j = Some k -> 
       exists e, nth_error (loaded m) k = Some e /\
         nth_error resp' (i + j) = Some (e_name e, runningb m (e_ptr e))).
Proof.
  intros I. induction sched as [|k sched IH]; intros i resp Hf Hl; simpl in *.
  - exists resp. repeat split; auto. intros [|j] k; discriminate.
  - inversion Hf as [|? ? Hk Hf']; subst.
    unfold vget, loaded_names. rewrite nth_error_map.
    destruct (nth_error (loaded m) k) as [e|] eqn:Ek; [|apply nth_error_None in Ek; lia].
    simpl. assert (He : In e (loaded m)) by (eapply nth_error_In; eauto).
    rewrite (lookup_in m (e_name e) (e_ptr e) I) by (destruct e; exact He).
    rewrite vset_ok by lia. simpl.
    destruct (IH (S i) (set_nth i (e_name e, isRunning (state_of m (e_ptr e))) resp)) as (r & E & L & O & C); auto.
    { rewrite set_nth_length. lia. }
    fold (loaded_names m) in *.
    exists r. split; [exact E|]. rewrite set_nth_length in L. split; auto. split.
    + intros j Hj. rewrite O by lia. apply set_nth_other. lia.
    + intros [|j] k' Hj; simpl in Hj.
      * inversion Hj; subst k'. exists e. split; auto. rewrite Nat.add_0_r, O by lia.
        apply set_nth_same. lia.
      * destruct (C j k' Hj) as (e' & X1 & X2). exists e'. split; auto. rewrite <- X2. f_equal. lia.
Qed.

Theorem list_spec asserts (m : mgr) :
  Inv m ->
  listControllers asserts m =
    Ok (map (fun e => (e_name e, runningb m (e_ptr e))) (order m)).
Proof.
  intros I. destruct (inv_valid m I) as [Hl Hf].
  unfold listControllers, getControllerNames, getControllerSchedule. simpl. fold (loaded m). fold (loaded_names m).
  unfold cassert. unfold loaded_names at 1. rewrite map_length, Hl, Nat.eqb_refl. simpl. rewrite andb_false_r. simpl.
  destruct (list_loop_spec asserts m I (scheds m (cur m)) 0 (resize (EmptyString, false) (List.length (loaded_names m)) []))
    as (r & E & L & _ & C); auto.
  { rewrite resize_length. unfold loaded_names. rewrite map_length. simpl. lia. }
  rewrite E. f_equal.
  rewrite resize_length in L. unfold loaded_names in L. rewrite map_length in L.
  assert (Hlo : List.length (order m) = List.length r).
  { rewrite (order_length m (inv_valid m I)). lia. }
  apply nth_error_ext'. intros j. rewrite nth_error_map.
  destruct (Nat.lt_ge_cases j (List.length r)) as [Hj|Hj].
  - assert (Hjs : j < List.length (scheds m (cur m))) by lia.
    destruct (order_nth_list (loaded m) (scheds m (cur m)) j Hf Hjs) as (e & k & X1 & X2 & X3).
    destruct (C j k X1) as (e' & Y1 & Y2). simpl in Y2. rewrite Y2.
    assert (e' = e) as -> by congruence. unfold order. rewrite X3. reflexivity.
  - rewrite (proj2 (nth_error_None r j)) by lia.
    rewrite (proj2 (nth_error_None (order m) j)) by lia. reflexivity.
Qed.

End Ops.
