(** Level B: well-formedness of one of the two lists, frames of the bodies. *)
From Coq Require Import List String Arith Bool ZArith Lia Sorting.Permutation.
From Verif.Model Require Import Base Scheduler Controller Manager ManagerConc.
From Verif.Spec Require Import SchedulerSpec ManagerSpec.
From Verif.Proofs Require Import SchedulerProofs ManagerProofs ManagerInv ManagerOps.
Import ListNotations.

Section Base.
Context {W : Type} (H : hooks W).
Notation mgr := (mgr W).

(** list number [b] with its schedule is complete and consistent *)
Record GoodList (m : mgr) (b : bool) : Prop := {
  gl_names : NoDup (map e_name (lists m b));
  gl_ptrs : NoDup (map e_ptr (lists m b));
  gl_lt : forall e, In e (lists m b) -> e_ptr e < next m;
  gl_sched : exists old, scheduleControllers (specs (heap m) (lists m b)) old = SchedOk (scheds m b);
  gl_state : forall e, In e (lists m b) -> state_of m (e_ptr e) <> CONSTRUCTED;
  gl_deps : forall l1 e l2, lists m b = l1 ++ e :: l2 ->
     forall n p, In (n, p) (handed_out m (e_ptr e)) -> In (mkEntry n p) l1;
  gl_got : forall e n, In e (lists m b) ->
     (In n (dep_names m (e_ptr e)) <-> In n (map fst (handed_out m (e_ptr e)))) }.

Lemma good_of_inv m : Inv m -> GoodList m (cur m).
Proof. intros I. constructor; apply I. Qed.

(** GoodList only depends on the list, its schedule and the objects in it *)
Lemma good_transfer m m' b b' :
  GoodList m b -> lists m' b' = lists m b -> scheds m' b' = scheds m b -> next m <= next m' ->
  (forall e, In e (lists m b) -> co_deps (heap m' (e_ptr e)) = co_deps (heap m (e_ptr e))) ->
  (forall e, In e (lists m b) -> co_state (heap m (e_ptr e)) <> CONSTRUCTED -> co_state (heap m' (e_ptr e)) <> CONSTRUCTED) ->
  GoodList m' b'.
Proof.
  intros G El Es En Ed Est.
  assert (Hspec : specs (heap m') (lists m' b') = specs (heap m) (lists m b)).
  { rewrite El. unfold specs. apply map_ext_in. intros e He. unfold spec_of. now rewrite Ed. }
  constructor.
  - rewrite El. apply G.
  - rewrite El. apply G.
  - rewrite El. intros e He. pose proof (gl_lt m b G e He). lia.
  - rewrite Hspec, Es. apply G.
  - rewrite El. intros e He. apply Est; auto. now apply (gl_state m b G).
  - rewrite El. intros l1 e l2 E n p. unfold handed_out. rewrite Ed.
    + apply (gl_deps m b G l1 e l2 E).
    + rewrite E. apply in_or_app. right. now left.
  - rewrite El. intros e n He. unfold dep_names, handed_out. rewrite Ed by auto. now apply (gl_got m b G).
Qed.

Lemma frame_good m m' b : frame m m' -> GoodList m b -> GoodList m' b.
Proof.
  intros (E1&E2&E3&E4&E5&E6&E7&E8&E9&E10) G. apply good_transfer with m b; auto.
  - now rewrite E1.
  - now rewrite E2.
  - rewrite E5. lia.
  - intros e _. apply E9.
  - intros e _ Hs X. apply Hs. now apply E10.
Qed.

(** everything of Inv except [used] follows from GoodList and the rest *)
Lemma inv_of_good m :
  GoodList m (cur m) -> (used m = None \/ used m = Some (cur m)) ->
  (forall p, In p (start_req m ++ stop_req m) -> In p (map e_ptr (loaded m))) ->
  (please m = false -> start_req m = [] /\ stop_req m = []) ->
  map cs_name (mstats m) = map e_name (loaded m) -> ~ In EvFatal (trace m) -> Inv m.
Proof. intros G Hu Hr Hi Hs Hf. constructor; auto; apply G. Qed.

(** schedule lookups in a good list *)
Definition order_in_list (m : mgr) (b : bool) : list entry :=
  flat_map (fun k => match nth_error (lists m b) k with Some e => [e] | None => [] end) (scheds m b).

Lemma good_valid m b : GoodList m b ->
  List.length (scheds m b) = List.length (lists m b) /\
  Forall (fun k => k < List.length (lists m b)) (scheds m b).
Proof.
  intros G. destruct (gl_sched m b G) as (old & E).
  pose proof (schedule_correct (specs (heap m) (lists m b)) old) as Hc.
  rewrite names_specs in Hc. specialize (Hc (gl_names m b G)). rewrite E in Hc.
  destruct Hc as (Hl & Hf & _). rewrite specs_length in *. split; auto.
Qed.

Lemma order_in_list_length m b : GoodList m b -> List.length (order_in_list m b) = List.length (lists m b).
Proof.
  intros G. destruct (good_valid m b G) as (Hl & Hf). rewrite <- Hl. clear Hl. unfold order_in_list.
  induction (scheds m b) as [|k s IH]; simpl in *; auto.
  inversion Hf; subst. destruct (nth_error (lists m b) k) eqn:Hn; [|apply nth_error_None in Hn; lia].
  simpl. f_equal. auto.
Qed.

Lemma order_in_list_in m b e : In e (order_in_list m b) -> In e (lists m b).
Proof.
  unfold order_in_list. intros Hin. apply in_flat_map in Hin. destruct Hin as (k & _ & Hk).
  destruct (nth_error (lists m b) k) eqn:E; [|destruct Hk]. destruct Hk as [->|[]].
  eapply nth_error_In; eauto.
Qed.

Lemma order_in_list_perm m b : GoodList m b -> Permutation (order_in_list m b) (lists m b).
Proof.
  intros G.
  set (m0 := set_mstats (map (fun e => mkCstat (e_name e) 0 false [] 0 0) (lists m b))
       (set_trace [] (set_please false (set_start_req [] (set_stop_req [] (set_used None (set_cur b m))))))).
  assert (I : Inv m0).
  { apply inv_of_good; simpl; auto.
    - apply good_transfer with m b; auto.
    - intros p [].
    - rewrite map_map. simpl. reflexivity. }
  exact (order_perm m0 I).
Qed.

Lemma rt_nth_good m b i : GoodList m b -> used m = Some b -> i < List.length (lists m b) ->
  exists e, rt_nth m i = Ok e /\ nth_error (order_in_list m b) i = Some e /\ In e (lists m b).
Proof.
  intros G Hu Hi. destruct (good_valid m b G) as (Hl & Hf).
  unfold rt_nth, rt_sched, rt_list. rewrite Hu. cbn [bind]. rewrite <- Hl in Hi.
  destruct (order_nth_list _ _ i Hf Hi) as (e & k & H1 & H2 & H3).
  exists e. unfold vget. rewrite H1. cbn [bind]. rewrite H2. repeat split; auto.
  eapply nth_error_In; eauto.
Qed.

(* ------------------------------------------------------------------ bodies *)
Definition is_init (e : event) : Prop := exists p b, e = EvCb p (CbInit b).

(** what the body of a load/unload call changes at most *)
Record bframe (m m' : mgr) : Prop := {
  bf_cur : cur m' = cur m;
  bf_used : used m' = used m;
  bf_start : start_req m' = start_req m;
  bf_stop : stop_req m' = stop_req m;
  bf_please : please m' = please m;
  bf_prev : prev_halted m' = prev_halted m;
  bf_mstats : mstats m' = mstats m;
  bf_list : lists m' (cur m) = lists m (cur m);
  bf_sched : scheds m' (cur m) = scheds m (cur m);
  bf_next : next m <= next m';
  bf_heap : forall p, p < next m -> heap m' p = heap m p;
  bf_trace : exists evs, trace m' = trace m ++ evs /\ Forall is_init evs }.

Lemma bframe_good m m' : bframe m m' -> GoodList m (cur m) -> GoodList m' (cur m).
Proof.
  intros F G. apply good_transfer with m (cur m); auto; try apply F.
  - intros e He. rewrite (bf_heap m m' F); auto. now apply (gl_lt m (cur m) G).
  - intros e He Hs. rewrite (bf_heap m m' F); auto. now apply (gl_lt m (cur m) G).
Qed.

Lemma negb_upd {A} (f : bool -> A) b x : upd f (negb b) x b = f b.
Proof. apply upd_negb. Qed.

Lemma load_body_frame env name m :
  match load_body H env name m with
  | Rejected m' | Thrown m' | Ready m' => bframe m m'
  | Broken => True
  end.
Proof.
  unfold load_body, free_list.
  assert (Hbase : forall ls, bframe m (set_lists (upd (lists m) (negb (cur m)) ls) m)).
  { intros ls. constructor; simpl; auto using negb_upd. exists []. rewrite app_nil_r. auto. }
  assert (Hbase2 : forall ls ls', bframe m (set_lists (upd (upd (lists m) (negb (cur m)) ls) (negb (cur m)) ls') m)).
  { intros ls ls'. constructor; simpl; auto.
    - now rewrite !negb_upd.
    - exists []. rewrite app_nil_r. auto. }
  destruct (existsb (fun e => String.eqb (e_name e) name) (lists m (cur m))); [apply Hbase2|].
  destruct (negb (pe_node_ok env name)); [apply Hbase|].
  destruct (construct env name) as [[[ty pr]|]|]; [|apply Hbase2|apply Hbase].
  set (m1 := set_lists _ m). unfold initRequest.
  assert (Hlate : forall obj cbs ls f, (Forall is_init (map (EvCb (next m)) cbs)) ->
     (forall x, f x = x \/ exists s, f x = upd x (negb (cur m)) s) ->
     let m2 := calls H (next m) cbs (set_next (S (next m)) (set_heap (upd_heap (heap m) (next m) obj) m1)) in
     bframe m (set_lists (upd (lists m2) (negb (cur m)) ls) (set_scheds (f (scheds m2)) m2))).
  { intros obj cbs ls f Hc Hf m2.
    destruct (calls_spec H (next m) cbs (set_next (S (next m)) (set_heap (upd_heap (heap m) (next m) obj) m1)))
      as (E1&E2&E3&E4&E5&E6&E7&E8&E9&E10&E11&E12&E13&E14). fold m2 in E1,E2,E3,E4,E5,E6,E7,E8,E9,E10,E11,E12,E13,E14.
    clearbody m2.
    constructor; simpl; auto.
    - rewrite E3. simpl. now rewrite !negb_upd.
    - rewrite E4. simpl. destruct (Hf (scheds m)) as [->|(s & ->)]; auto using negb_upd.
    - rewrite E2. simpl. lia.
    - intros p Hp. rewrite E1. simpl. unfold upd_heap. destruct (Nat.eqb_spec p (next m)); auto. lia.
    - rewrite E14. simpl. eauto. }
  assert (Hi : forall b, Forall is_init (map (EvCb (next m)) [CbInit b])).
  { intros b. repeat constructor. exists (next m), b. reflexivity. }
  change (next m1) with (next m).
  assert (Hid : forall obj cbs ls, Forall is_init (map (EvCb (next m)) cbs) ->
     let m2 := calls H (next m) cbs (set_next (S (next m)) (set_heap (upd_heap (heap m) (next m) obj) m1)) in
     bframe m (set_lists (upd (lists m2) (negb (cur m)) ls) m2)).
  { intros obj cbs ls Hc m2. pose proof (Hlate obj cbs ls (fun x => x) Hc (fun x => or_introl eq_refl)) as X.
    cbv zeta in X. fold m2 in X. destruct m2; exact X. }
  destruct (run_init (Some (as_provider m1)) pr no_deps) as [[[|]|] d].
  - cbv zeta. 
    match goal with |- context [scheduleControllers ?a ?b] => destruct (scheduleControllers a b) as [s|s| |] end; auto.
    + match goal with |- bframe m (set_scheds ?a (set_lists ?b ?c)) =>
        change (set_scheds a (set_lists b c)) with (set_lists b (set_scheds a c)) end.
      apply (Hlate (mkObj ty INITIALIZED d new_stats) [CbInit true] _ (fun x => upd x (negb (cur m)) s) (Hi true)).
      intros x. right. eauto.
    + apply (Hlate (mkObj ty INITIALIZED d new_stats) [CbInit true] _ (fun x => upd x (negb (cur m)) s) (Hi true)).
      intros x. right. eauto.
  - apply (Hid (mkObj ty CONSTRUCTED d new_stats) [CbInit false]). apply Hi.
  - apply (Hid (mkObj ty CONSTRUCTED d new_stats) [CbInit false]). apply Hi.
Qed.

Lemma unload_body_frame name m :
  match unload_body name m with
  | Rejected m' | Thrown m' | Ready m' => bframe m m' /\ heap m' = heap m /\ trace m' = trace m /\ next m' = next m
  | Broken => True
  end.
Proof.
  unfold unload_body, free_list.
  assert (Hb : forall ls sc, (sc = scheds m \/ exists s, sc = upd (scheds m) (negb (cur m)) s) ->
     let m' := set_scheds sc (set_lists (upd (lists m) (negb (cur m)) ls) m) in
     bframe m m' /\ heap m' = heap m /\ trace m' = trace m /\ next m' = next m).
  { intros ls sc Hsc m'. repeat (split; [|reflexivity]). split; [|auto]. constructor; simpl; auto using negb_upd.
    - destruct Hsc as [->|(s & ->)]; auto using negb_upd.
    - exists []. rewrite app_nil_r. auto. }
  assert (Hb0 : forall ls, let m' := set_lists (upd (lists m) (negb (cur m)) ls) m in
     bframe m m' /\ heap m' = heap m /\ trace m' = trace m /\ next m' = next m).
  { intros ls. pose proof (Hb ls (scheds m) (or_introl eq_refl)) as X. destruct m; exact X. }
  destruct (existsb _ _); [apply Hb0|].
  destruct (transfer _ _ _) as [[[|] to]|]; [|apply Hb0|apply Hb0].
  destruct (scheduleControllers _ _) as [s|s| |]; auto.
  - apply Hb. eauto.
  - match goal with |- bframe m (set_lists ?b (set_scheds ?a ?c)) /\ _ =>
        change (set_lists b (set_scheds a c)) with (set_scheds a (set_lists b c)) end.
    apply Hb. eauto.
Qed.

(** the prepared list after a successful body *)
Lemma commit_good m : Inv (commit m) -> GoodList m (negb (cur m)).
Proof.
  intros I. apply good_of_inv in I.
  assert (El : lists (commit m) (cur (commit m)) = lists m (negb (cur m))).
  { unfold commit, clear_former. simpl. rewrite negb_upd. reflexivity. }
  apply good_transfer with (commit m) (cur (commit m)); auto.
Qed.

Lemma load_ready env name m m' :
  Inv m -> please m = false -> load_body H env name m = Ready m' ->
  GoodList m' (negb (cur m)) /\ ~ In name (loaded_names m) /\
  lists m' (negb (cur m)) = loaded m ++ [mkEntry name (next m)] /\ state_of m' (next m) = INITIALIZED.
Proof.
  intros I Hp E. pose proof (load_body_frame env name m) as F. rewrite E in F.
  destruct (load_spec H env name m I Hp) as (a & m'' & E2 & I' & _ & Hs).
  unfold loadController in E2. rewrite E in E2. inversion E2; subst a m''.
  destruct Hs as (Hn & Hl & _ & Hst & _). split; [|split; [exact Hn|split]].
  - rewrite <- (bf_cur m m' F). now apply commit_good.
  - rewrite <- (bf_cur m m' F). unfold loaded, commit, clear_former in Hl. simpl in Hl. rewrite negb_upd in Hl. exact Hl.
  - exact Hst.
Qed.

Lemma unload_ready name m m' :
  Inv m -> please m = false -> unload_body name m = Ready m' ->
  GoodList m' (negb (cur m)) /\ lists m' (negb (cur m)) = others name (loaded m) /\
  (exists e, In e (loaded m) /\ e_name e = name /\ ~ running m (e_ptr e)) /\ ~ has_dependent m name.
Proof.
  intros I Hp E. pose proof (unload_body_frame name m) as F. rewrite E in F. destruct F as [F _].
  destruct (unload_spec name m I Hp) as (b & m'' & E2 & I' & _ & _ & _ & _ & Hb & Hl).
  unfold unloadController in E2. rewrite E in E2. inversion E2; subst b m''.
  split; [|split].
  - rewrite <- (bf_cur m m' F). now apply commit_good.
  - rewrite <- (bf_cur m m' F). unfold loaded at 1, commit, clear_former in Hl. simpl in Hl. rewrite negb_upd in Hl. exact Hl.
  - now apply Hb.
Qed.

Lemma bodies_not_broken cl m : Inv m -> please m = false -> body H cl m <> Broken.
Proof.
  intros I Hp. destruct cl as [env n|n|a b s]; simpl; intros E.
  - destruct (load_spec H env n m I Hp) as (x & m'' & E2 & _). unfold loadController in E2. rewrite E in E2. discriminate.
  - destruct (unload_spec n m I Hp) as (x & m'' & E2 & _). unfold unloadController in E2. rewrite E in E2. discriminate.
  - destruct (switch_request_spec a b s m I Hp) as [(_ & _ & m' & E2 & _)|(_ & m' & E2 & _)]; congruence.
Qed.
End Base.
