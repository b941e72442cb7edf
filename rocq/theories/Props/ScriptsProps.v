(** C64, C65, C69, C70: the command line clients. *)
From Coq Require Import List String Arith Bool ZArith Lia Sorting.Permutation.
From Verif.Model Require Import Base Scheduler Controller Manager Scripts.
From Verif.Spec Require Import SchedulerSpec ManagerSpec ScriptsSpec.
From Verif.Proofs Require Import SchedulerProofs ManagerProofs ManagerInv ManagerOps ScriptsProofs.
From Verif.Props Require Import ManagerProps.
Import ListNotations.
Open Scope string_scope.
Open Scope list_scope.

Section Theorems.
Context {W : Type} (H : hooks W) (HP : positive_periods H).
Notation mgr := (mgr W).

(* ------------------------------------------------------------------ C64 *)
Section Spawner.
Variables (plugins : plugin_env -> Prop) (asserts : bool) (ns : list string).

Definition idle_mine (m : mgr) (mine : list entry) : Prop :=
  forall e, In e mine -> ~ running m (e_ptr e) /\ (please m = true -> ~ In (e_ptr e) (start_req m)).

(** the last of the script's own controllers can always be unloaded *)
Lemma last_unloadable m pre mine e :
  reachable H m -> named ns m = pre ++ mine ++ [e] -> no_outside_dependents ns m ->
  ~ has_dependent m (e_name e).
Proof.
  intros Hr Hn Hi (e' & He' & Hd). pose proof (inv_of H HP m Hr) as I.
  assert (Hin : In e (named ns m)) by (rewrite Hn; apply in_or_app; right; apply in_or_app; right; now left).
  apply named_in in Hin. destruct Hin as [Hin Hns].
  assert (Hn' : In e' (named ns m)) by (apply named_in; split; auto; eapply Hi; eauto).
  apply (inv_got m I e' _ He') in Hd. apply in_map_iff in Hd. destruct Hd as ([n p] & En & Hg). simpl in En. subst n.
  apply in_split in He'. destruct He' as (l1 & l2 & El).
  pose proof (inv_deps m I l1 e' l2 El _ _ Hg) as Hl1.
  assert (Ee : e = mkEntry (e_name e) p).
  { eapply nodup_names_inj; [apply (inv_names m I)|exact Hin| |reflexivity].
    rewrite El. apply in_or_app. now left. }
  rewrite <- Ee in Hl1. clear Hg.
  (* e is in l1, so before e', but e is the last of the named ones *)
  apply in_split in Hl1. destruct Hl1 as (k1 & k2 & ->).
  assert (X : named ns m = filter (pick ns) k1 ++ e :: filter (pick ns) (k2 ++ e' :: l2)).
  { unfold named. rewrite El. change (fun e0 : entry => if in_dec string_dec (e_name e0) ns then true else false) with (pick ns).
    rewrite <- app_assoc, filter_app. simpl. unfold pick at 2.
    destruct (in_dec string_dec (e_name e) ns); [reflexivity|tauto]. }
  assert (Nd : NoDup (map e_name (named ns m))).
  { unfold named. apply nodup_map_filter. apply (inv_names m I). }
  rewrite X in Hn. rewrite X in Nd.
  assert (Y : In e' (filter (pick ns) (k2 ++ e' :: l2))).
  { apply filter_In. split; [apply in_or_app; right; now left|]. unfold pick. apply named_in in Hn'.
    destruct (in_dec string_dec (e_name e') ns); tauto. }
  destruct (exists_last (l := filter (pick ns) (k2 ++ e' :: l2))) as (f & z & Ef); [intros E; rewrite E in Y; destruct Y|].
  rewrite Ef in Hn, Nd. rewrite app_comm_cons, !app_assoc in Hn. apply app_inj_tail in Hn. destruct Hn as [_ ->].
  rewrite map_app in Nd. apply nodup_right in Nd. simpl in Nd. inversion Nd as [|? ? Z _]. apply Z.
  rewrite map_app. apply in_or_app. right. now left.
Qed.

Notation run := (run H (respectful ns) plugins asserts).

Lemma named_of_loaded (m m' : mgr) : loaded m' = loaded m -> named ns m' = named ns m.
Proof. unfold named. now intros ->. Qed.

Lemma outside_frame (m m' : mgr) :
  (forall e, In e (loaded m') -> ~ In (e_name e) ns -> In e (loaded m) /\ dep_names m' (e_ptr e) = dep_names m (e_ptr e)) ->
  no_outside_dependents ns m -> no_outside_dependents ns m'.
Proof.
  intros F N e d He Hd Hn. destruct (in_dec string_dec (e_name e) ns) as [Y|Y]; auto.
  destruct (F e He Y) as [X1 X2]. eapply N; eauto. now rewrite <- X2.
Qed.

Lemma unload_each_ends pre : forall mine m m',
  reachable H m -> named ns m = pre ++ mine -> no_outside_dependents ns m -> idle_mine m mine ->
  run m (unload_each (map e_name (rev mine))) m' -> named ns m' = pre.
Proof.
  induction mine as [|e mine IH] using rev_ind; intros m m' Hr Hn Ho Hi Hrun.
  - simpl in Hrun. destruct (run_cases _ _ _ _ _ _ _ Hrun) as (m0 & _ & _ & ->). rewrite Hn. apply app_nil_r.
  - rewrite rev_app_distr in Hrun. simpl in Hrun.
    destruct (run_cases _ _ _ _ _ _ _ Hrun) as (m0 & D & a & m1 & Hp & E & Hrun1). clear Hrun.
    destruct (drift_respectful H HP ns m m0 Hr D) as (Hr0 & Hn0 & Ho0 & Hx). specialize (Ho0 Ho).
    assert (Hi0 : idle_mine m0 (mine ++ [e])).
    { intros x Hx'. destruct (Hi x Hx'). apply Hx; auto. rewrite Hn. apply in_or_app. now right. }
    rewrite Hn in Hn0. clear Hx.
    destruct (call_unload H HP (e_name e) m0 a m1 Hr0 Hp E) as (Hr1 & Hp1 & Hh & b & -> & Hb & Hl).
    assert (He : In e (named ns m0)) by (rewrite Hn0; apply in_or_app; right; apply in_or_app; right; now left).
    assert (b = true) as ->.
    { apply Hb. split.
      - exists e. split; [apply named_in in He; tauto|]. split; auto.
        apply Hi0. apply in_or_app. right. now left.
      - eapply last_unloadable; eauto. }
    assert (Hn1 : named ns m1 = pre ++ mine).
    { unfold named. rewrite Hl. change (fun e0 : entry => if in_dec string_dec (e_name e0) ns then true else false) with (pick ns).
      assert (X : forall l : list entry, filter (pick ns) (ManagerOps.others (e_name e) l) = ManagerOps.others (e_name e) (filter (pick ns) l)).
      { unfold ManagerOps.others. induction l as [|x l IHl]; simpl; auto.
        destruct (negb (String.eqb (e_name x) (e_name e))) eqn:E1, (pick ns x) eqn:E2; simpl; rewrite ?E1, ?E2; congruence. }
      rewrite X. change (filter (pick ns) (loaded m0)) with (named ns m0). rewrite Hn0.
      assert (Nd : NoDup (map e_name ((pre ++ mine) ++ [e]))).
      { rewrite <- app_assoc, <- Hn0. unfold named. apply nodup_map_filter. apply (inv_names m0 (inv_of H HP m0 Hr0)). }
      rewrite app_assoc. revert Nd. generalize (pre ++ mine). clear. intros l Nd. unfold ManagerOps.others.
      rewrite filter_app. simpl. rewrite String.eqb_refl. simpl. rewrite app_nil_r.
      rewrite map_app in Nd. simpl in Nd. apply NoDup_remove in Nd. rewrite app_nil_r in Nd. destruct Nd as [_ Nd].
      induction l as [|x l IH]; simpl in *; auto.
      destruct (String.eqb_spec (e_name x) (e_name e)); [tauto|]. simpl. f_equal. apply IH. tauto. }
    apply (IH m1 m'); auto.
    + apply (outside_frame m0 m1); auto. intros x Hx _. rewrite Hl in Hx. apply filter_In in Hx. split; [tauto|].
      unfold dep_names. now rewrite Hh.
    + intros x Hx. split; [unfold running; rewrite Hh; apply Hi0; apply in_or_app; now left|congruence].
Qed.

Lemma shutdown_ends pre mine m m' :
  reachable H m -> named ns m = pre ++ mine -> no_outside_dependents ns m ->
  run m (shutdown (map e_name mine)) m' -> named ns m' = pre.
Proof.
  intros Hr Hn Ho Hrun. unfold shutdown in Hrun.
  destruct (run_cases _ _ _ _ _ _ _ Hrun) as (m0 & D & l1 & l2 & a & m1 & Hp & E & Hrun1). clear Hrun.
  destruct (drift_respectful H HP ns m m0 Hr D) as (Hr0 & Hn0 & Ho0 & _). specialize (Ho0 Ho). rewrite Hn in Hn0.
  destruct (call_switch H HP _ _ _ _ _ m0 a m1 Hr0 Hp E) as (Hr1 & Hp1 & Hl & _ & Hd & b & -> & Hb & _ & Hrunning).
  rewrite <- map_rev in Hrun1.
  assert (b = true) as ->.
  { destruct b; auto. exfalso. destruct (proj1 Hb eq_refl) as [_ X]. apply X. split; [intros x []|].
    intros x Hx. apply in_map_iff in Hx. destruct Hx as (e & <- & He). apply in_map.
    assert (In e (named ns m0)) as Y by (rewrite Hn0; apply in_or_app; now right). apply named_in in Y. tauto. }
  apply (unload_each_ends pre mine m1 m'); auto.
  - rewrite <- Hn0. now apply named_of_loaded.
  - apply (outside_frame m0 m1); auto. intros x Hx _. rewrite Hl in Hx. split; auto. unfold dep_names. now rewrite Hd.
  - intros e He. split; [|congruence].
    assert (In e (named ns m0)) as Y by (rewrite Hn0; apply in_or_app; now right). apply named_in in Y.
    rewrite (Hrunning eq_refl e) by tauto. intros [[]|[_ Z]]. apply Z. now apply in_map.
Qed.

Lemma spawner_load_ends autostart : forall todo kill pre mine m m',
  (forall n, In n todo -> In n ns) ->
  reachable H m -> named ns m = pre ++ mine -> no_outside_dependents ns m ->
  run m (spawner_load autostart kill todo (map e_name mine)) m' -> named ns m' = pre.
Proof.
  induction todo as [|n todo IH]; intros kill pre mine m m' Ht Hr Hn Ho Hrun.
  - assert (X : run m (shutdown (map e_name mine)) m' \/ run m (spawner_started autostart (map e_name mine)) m').
    { destruct kill as [[|]|]; auto. }
    clear Hrun. destruct X as [Hrun|Hrun]; [eapply shutdown_ends; eauto|].
    unfold spawner_started in Hrun. destruct autostart; [|eapply shutdown_ends; eauto].
    destruct (run_cases _ _ _ _ _ _ _ Hrun) as (m0 & D & l1 & l2 & a & m1 & Hp & E & Hrun1). clear Hrun.
    destruct (drift_respectful H HP ns m m0 Hr D) as (Hr0 & Hn0 & Ho0 & _). specialize (Ho0 Ho). rewrite Hn in Hn0.
    destruct (call_switch H HP _ _ _ _ _ m0 a m1 Hr0 Hp E) as (Hr1 & Hp1 & Hl & _ & Hd & _).
    apply (shutdown_ends pre mine m1 m'); auto.
    + rewrite <- Hn0. now apply named_of_loaded.
    + apply (outside_frame m0 m1); auto. intros x Hx _. rewrite Hl in Hx. split; auto. unfold dep_names. now rewrite Hd.
  - assert (X : run m (shutdown (map e_name mine)) m' \/
      exists kill', run m (Load n (fun a =>
            match a with
            | Returned true => spawner_load autostart kill' todo (map e_name mine ++ [n])
            | Returned false => spawner_load autostart kill' todo (map e_name mine)
            | Exception => shutdown (map e_name mine)
            end)) m').
    { destruct kill as [[|k]|]; [left; auto|right; exists (Some k); exact Hrun|right; exists None; exact Hrun]. }
    clear Hrun. destruct X as [Hrun|(kill' & Hrun)]; [eapply shutdown_ends; eauto|].
    destruct (run_cases _ _ _ _ _ _ _ Hrun) as (m0 & D & env & a & m1 & Hp & _ & E & Hrun1). clear Hrun.
    destruct (drift_respectful H HP ns m m0 Hr D) as (Hr0 & Hn0 & Ho0 & _). specialize (Ho0 Ho). rewrite Hn in Hn0.
    destruct (call_load H HP env n m0 a m1 Hr0 Hp E) as (Hr1 & Hp1 & Hh & X).
    assert (Hns : In n ns) by (apply Ht; now left).
    destruct X as [(-> & Hnl & p & Hl & Hnr)|(Ha & Hl)].
    + change [n] with (map e_name [mkEntry n p]) in Hrun1. rewrite <- map_app in Hrun1.
      apply (IH kill' pre (mine ++ [mkEntry n p]) m1 m'); auto.
      * intros x Hx. apply Ht. now right.
      * unfold named. rewrite Hl, filter_app. fold (named ns m0). rewrite Hn0. simpl.
        destruct (in_dec string_dec n ns); [|tauto]. now rewrite <- app_assoc.
      * apply (outside_frame m0 m1); auto. intros x Hx Hxn. rewrite Hl in Hx. apply in_app_iff in Hx.
        destruct Hx as [Hx|[<-|[]]]; [|simpl in Hxn; tauto]. split; auto. unfold dep_names. now rewrite Hh.
    + assert (Hn1 : named ns m1 = pre ++ mine) by (rewrite <- Hn0; now apply named_of_loaded).
      assert (Ho1 : no_outside_dependents ns m1).
      { apply (outside_frame m0 m1); auto. intros x Hx _. rewrite Hl in Hx. split; auto. unfold dep_names. now rewrite Hh. }
      destruct a as [[|]|]; [congruence| |].
      * eapply IH; [| | | |exact Hrun1]; eauto. intros x Hx. apply Ht. now right.
      * eapply shutdown_ends; [| | |exact Hrun1]; eauto.
Qed.
End Spawner.

(** C64: a spawner for the controllers [ns], killed whenever (while loading or later), whatever happens to
    its load and start requests, among other clients that leave its controllers alone: when it has
    terminated, the loaded controllers with those names are exactly the ones that were loaded before. *)
Theorem C64_spawner_leaves_nothing_behind :
  forall plugins asserts autostart kill ns (m m' : mgr),
    reachable H m -> no_outside_dependents ns m ->
    run H (respectful ns) plugins asserts m (spawner autostart kill ns) m' ->
    named ns m' = named ns m.
Proof.
  intros plugins asserts autostart kill ns m m' Hr Ho Hrun. unfold spawner in Hrun.
  apply (spawner_load_ends plugins asserts ns autostart ns kill (named ns m) [] m m'); auto.
  now rewrite app_nil_r.
Qed.

(** If one of its controllers has been unloaded by somebody else, the STRICT stop request of the shutdown is
    refused as a whole: whatever is running stays loaded and running. *)
Lemma unload_each_keeps_running plugins asserts : forall l (m m' : mgr),
  reachable H m -> please m = false -> run H alone plugins asserts m (unload_each l) m' ->
  forall e, In e (loaded m) -> running m (e_ptr e) -> In e (loaded m') /\ running m' (e_ptr e).
Proof.
  induction l as [|n l IH]; intros m m' Hr Hp Hrun e He Hru; simpl in Hrun.
  - destruct (run_cases _ _ _ _ _ _ _ Hrun) as (m0 & _ & _ & ->). auto.
  - destruct (run_cases _ _ _ _ _ _ _ Hrun) as (m0 & D & a & m1 & Hp0 & E & Hrun1). clear Hrun.
    destruct (drift_alone H HP m m0 Hr Hp D) as (Hr0 & _ & L0 & _ & S0 & _).
    destruct (call_unload H HP n m0 a m1 Hr0 Hp0 E) as (Hr1 & Hp1 & Hh & b & -> & Hb & Hl).
    apply (IH m1 m' Hr1 Hp1 Hrun1 e); [|unfold running; rewrite Hh, S0; exact Hru].
    rewrite Hl, L0. destruct b; auto. apply filter_In. split; auto.
    destruct (String.eqb_spec (e_name e) n) as [En|]; auto. exfalso.
    destruct (proj1 Hb eq_refl) as [(e' & He' & En' & Hn') _]. rewrite L0 in He'.
    assert (e = e') as -> by (eapply nodup_names_inj; [apply (inv_names m (inv_of H HP m Hr))|auto|auto|congruence]).
    apply Hn'. unfold running. now rewrite S0.
Qed.

Theorem C64_shutdown_refused_after_foreign_unload :
  forall plugins asserts mine (m m' : mgr),
    reachable H m -> please m = false -> (exists n, In n mine /\ ~ In n (loaded_names m)) ->
    run H alone plugins asserts m (shutdown mine) m' ->
    forall e, In e (loaded m) -> running m (e_ptr e) -> In e (loaded m') /\ running m' (e_ptr e).
Proof.
  intros plugins asserts mine m m' Hr Hp (n & Hn & Hnl) Hrun e He Hru. unfold shutdown in Hrun.
  destruct (run_cases _ _ _ _ _ _ _ Hrun) as (m0 & D & l1 & l2 & a & m1 & Hp0 & E & Hrun1). clear Hrun.
  destruct (drift_alone H HP m m0 Hr Hp D) as (Hr0 & _ & L0 & _ & S0 & _).
  destruct (call_switch H HP _ _ _ _ _ m0 a m1 Hr0 Hp0 E) as (Hr1 & Hp1 & Hl & _ & Hd & b & -> & Hb & Hf & _).
  assert (b = false) as ->.
  { apply Hb. split; auto. intros [_ X]. apply Hnl. unfold loaded_names. rewrite <- L0. now apply X. }
  apply (unload_each_keeps_running plugins asserts (rev mine) m1 m' Hr1 Hp1 Hrun1).
  - now rewrite Hl, L0.
  - unfold running. rewrite (Hf eq_refl), S0. exact Hru.
Qed.

(** A shutdown without interference leaves every controller it does not know of loaded, and whatever that one uses. *)
Lemma unload_each_keeps plugins asserts : forall l (m m' : mgr) e,
  reachable H m -> please m = false -> run H alone plugins asserts m (unload_each l) m' -> In e (loaded m) -> ~ In (e_name e) l ->
  In e (loaded m') /\ forall e', In e' (loaded m) -> In (e_name e') (dep_names m (e_ptr e)) -> In e' (loaded m').
Proof.
  induction l as [|n l IH]; intros m m' e Hr Hp Hrun He Hn; simpl in Hrun.
  - destruct (run_cases _ _ _ _ _ _ _ Hrun) as (m0 & _ & _ & ->). auto.
  - destruct (run_cases _ _ _ _ _ _ _ Hrun) as (m0 & D & a & m1 & Hp0 & E & Hrun1). clear Hrun.
    destruct (drift_alone H HP m m0 Hr Hp D) as (Hr0 & _ & L0 & _ & _ & D0).
    destruct (call_unload H HP n m0 a m1 Hr0 Hp0 E) as (Hr1 & Hp1 & Hh & b & -> & Hb & Hl).
    assert (DN : forall q, dep_names m1 q = dep_names m q) by (intros q; unfold dep_names; now rewrite Hh, D0).
    assert (K : forall x, In x (loaded m) -> (e_name x <> n \/ In (e_name x) (dep_names m (e_ptr e))) -> In x (loaded m1)).
    { intros x Hx C. rewrite Hl, L0. destruct b; auto. apply filter_In. split; auto.
      destruct (String.eqb_spec (e_name x) n) as [En|]; auto. exfalso. destruct C as [C|C]; [congruence|].
      apply (proj2 (proj1 Hb eq_refl)). exists e. rewrite L0. split; [exact He|]. unfold dep_names in *. rewrite D0, <- En. exact C. }
    assert (Hn' : e_name e <> n /\ ~ In (e_name e) l) by (simpl in Hn; intuition). destruct Hn' as [N1 N2].
    destruct (IH m1 m' e Hr1 Hp1 Hrun1 (K e He (or_introl N1)) N2) as [A B]. split; [exact A|].
    intros e' He' Hd. apply B; [apply K; auto|]. now rewrite DN.
Qed.
Lemma shutdown_keeps plugins asserts mine (m m' : mgr) e :
  reachable H m -> please m = false -> run H alone plugins asserts m (shutdown mine) m' -> In e (loaded m) -> ~ In (e_name e) mine ->
  In e (loaded m') /\ forall e', In e' (loaded m) -> In (e_name e') (dep_names m (e_ptr e)) -> In e' (loaded m').
Proof.
  intros Hr Hp Hrun He Hn. unfold shutdown in Hrun.
  destruct (run_cases _ _ _ _ _ _ _ Hrun) as (m0 & D & l1 & l2 & a & m1 & Hp0 & E & Hrun1). clear Hrun.
  destruct (drift_alone H HP m m0 Hr Hp D) as (Hr0 & _ & L0 & _ & _ & D0).
  destruct (call_switch H HP _ _ _ _ _ m0 a m1 Hr0 Hp0 E) as (Hr1 & Hp1 & Hl & _ & Hd & b & -> & _).
  destruct (unload_each_keeps plugins asserts (rev mine) m1 m' e Hr1 Hp1 Hrun1) as [A B].
  - now rewrite Hl, L0.
  - now rewrite <- in_rev.
  - split; [exact A|]. intros e' He' Hd'. apply B; [now rewrite Hl, L0|]. unfold dep_names in *. now rewrite Hd, D0.
Qed.
Lemma load_exception env n (m m1 : mgr) : loadController H env n m = Ok (Exception, m1) -> construct env n = None.
Proof.
  unfold loadController, load_body. destruct (existsb _ _); [discriminate|]. destruct (negb _); [discriminate|].
  destruct (construct env n) as [[[ty pr]|]|]; try discriminate; auto. destruct (initRequest _ _ _ _) as [[[ir cbs] s] d]. destruct ir as [[]|]; try discriminate.
  match goal with |- context [scheduleControllers ?x ?y] => destruct (scheduleControllers x y) end; discriminate.
Qed.

(** A spawner interrupted while the manager executes one of its load calls never hears the answer: if that load was
    accepted, the controller is left behind, and so is every controller it uses. *)
Lemma lost_ends (plugins : plugin_env -> Prop) asserts : (forall env x, plugins env -> construct env x <> None) -> forall ns k mine n (m m' : mgr),
  reachable H m -> please m = false -> nth_error ns k = Some n -> ~ In n (mine ++ firstn k ns) ->
  run H alone plugins asserts m (spawner_lost k ns mine) m' ->
  exists env m0 a m1, plugins env /\ reachable H m0 /\ loadController H env n m0 = Ok (a, m1) /\
    (a = Returned true -> exists e, In e (loaded m') /\ e_name e = n /\ In e (loaded m1) /\
       forall e', In e' (loaded m1) -> In (e_name e') (dep_names m1 (e_ptr e)) -> In e' (loaded m')).
Proof.
  intros NT. induction ns as [|x ns IH]; intros k mine n m m' Hr Hp Hk Hn Hrun; [destruct k; discriminate|]. simpl in Hrun.
  destruct (run_cases _ _ _ _ _ _ _ Hrun) as (m0 & D & env & a & m1 & Hp0 & PL & E & Hrun1). clear Hrun.
  destruct (drift_alone H HP m m0 Hr Hp D) as (Hr0 & _ & L0 & _ & _ & D0).
  destruct (call_load H HP env x m0 a m1 Hr0 Hp0 E) as (Hr1 & Hp1 & Hh & X).
  destruct k as [|k]; cbn in Hk.
  - injection Hk as ->. exists env, m0, a, m1. split; auto. split; auto. split; auto. intros ->.
    destruct X as [(_ & _ & p & Hl & _)|(X & _)]; [|congruence].
    assert (I1 : In (mkEntry n p) (loaded m1)) by (rewrite Hl; apply in_or_app; right; now left).
    assert (NM : ~ In n mine) by (intros Z; apply Hn; apply in_or_app; now left).
    destruct (shutdown_keeps plugins asserts mine m1 m' (mkEntry n p) Hr1 Hp1 Hrun1 I1 NM) as [A B].
    exists (mkEntry n p). auto.
  - assert (N1 : ~ In n ((mine ++ [x]) ++ firstn k ns)) by (rewrite <- app_assoc; exact Hn).
    assert (N2 : ~ In n (mine ++ firstn k ns)).
    { intros Z. apply Hn. apply in_app_or in Z. apply in_or_app. destruct Z; [now left|right; now right]. }
    destruct a as [[|]|].
    + exact (IH k _ n m1 m' Hr1 Hp1 Hk N1 Hrun1).
    + exact (IH k _ n m1 m' Hr1 Hp1 Hk N2 Hrun1).
    + exfalso. eapply NT; [exact PL|]. eapply load_exception; eauto.
Qed.
Theorem C64_interrupted_load_left_behind : forall (plugins : plugin_env -> Prop) asserts ns k n (m m' : mgr),
  (forall env x, plugins env -> construct env x <> None) ->
  reachable H m -> please m = false -> nth_error ns k = Some n -> ~ In n (firstn k ns) ->
  run H alone plugins asserts m (spawner_lost k ns []) m' ->
  exists env m0 a m1, plugins env /\ reachable H m0 /\ loadController H env n m0 = Ok (a, m1) /\
    (a = Returned true -> exists e, In e (loaded m') /\ e_name e = n /\ In e (loaded m1) /\
       forall e', In e' (loaded m1) -> In (e_name e') (dep_names m1 (e_ptr e)) -> In e' (loaded m')).
Proof. intros plugins asserts ns k n m m' NT Hr Hp Hk Hn Hrun. exact (lost_ends plugins asserts NT ns k [] n m m' Hr Hp Hk Hn Hrun). Qed.

(* ------------------------------------------------------------------ C65 *)
Lemma head_no_deps (m : mgr) e l : reachable H m -> loaded m = e :: l -> dep_names m (e_ptr e) = [].
Proof.
  intros Hr El. pose proof (inv_of H HP m Hr) as I.
  destruct (dep_names m (e_ptr e)) as [|n ns] eqn:En; auto. exfalso.
  assert (X : In n (map fst (handed_out m (e_ptr e)))).
  { apply (inv_got m I); [rewrite El; now left|rewrite En; now left]. }
  apply in_map_iff in X. destruct X as ([n' p] & _ & X). exact (inv_deps m I [] e l El n' p X).
Qed.

Lemma unload_all_forward : forall l (m : mgr), reachable H m -> please m = false -> loaded m = l ->
  (forall e, In e l -> ~ running m (e_ptr e)) ->
  exists ok m', unload_all (map e_name l) m = Ok (ok, m') /\ reachable H m' /\ please m' = false /\ heap m' = heap m /\
    exists l1 l2, l = l1 ++ l2 /\ loaded m' = l2 /\ (forall e, In e l1 -> dep_names m (e_ptr e) = []) /\
      (ok = true -> l2 = []) /\ (ok = false -> exists e, In e l /\ dep_names m (e_ptr e) <> []).
Proof.
  induction l as [|e l IH]; intros m Hr Hp El Hnr; simpl.
  - exists true, m. split; auto. split; auto. split; auto. split; auto. exists [], []. repeat split; auto.
    + intros ? [].
    + discriminate.
  - pose proof (inv_of H HP m Hr) as I.
    destruct (unload_spec (e_name e) m I Hp) as (b & m1 & E & _ & Hp1 & _ & _ & Hh & Hb & Hl).
    assert (Hr1 : reachable H m1) by (eapply reach_step; [exact Hr|rewrite <- E; now constructor]).
    rewrite E. cbn [bind]. destruct b.
    + assert (El1 : loaded m1 = l).
      { rewrite Hl, El. unfold ManagerOps.others. simpl. rewrite String.eqb_refl. simpl.
        pose proof (inv_names m I) as N. rewrite El in N. simpl in N. inversion N as [|? ? N1 N2]; subst.
        clear -N1. induction l as [|x l IH]; simpl in *; auto.
        destruct (String.eqb_spec (e_name x) (e_name e)); [elim N1; auto|]. simpl. f_equal. apply IH. tauto. }
      destruct (IH m1 Hr1 Hp1 El1) as (ok & m' & E' & Hr' & Hp' & Hh' & l1 & l2 & Es & El2 & Hd & Hok & Hko).
      { intros x Hx. unfold running. rewrite Hh. apply Hnr. now right. }
      exists ok, m'. split; auto. split; auto. split; auto. split; [congruence|]. exists (e :: l1), l2.
      split; [now rewrite Es|]. split; auto. split; [|split; auto].
      * intros x [<-|Hx]; [eapply head_no_deps; eauto|]. rewrite <- (Hd x Hx). unfold dep_names. now rewrite Hh.
      * intros X. destruct (Hko X) as (x & Hx & Hx'). exists x. split; [now right|]. unfold dep_names in *. now rewrite <- Hh.
    + exists false, m1. split; auto. split; auto. split; auto. split; auto. exists [], (e :: l).
      split; auto. split; [rewrite <- El; apply Hl|]. split; [intros ? []|]. split; [discriminate|]. intros _.
      assert (X : has_dependent m (e_name e)).
      { destruct (in_dec string_dec (e_name e) (flat_map (fun x => dep_names m (e_ptr x)) (loaded m))) as [Y|Y].
        - apply in_flat_map in Y. destruct Y as (x & Y1 & Y2). exists x. auto.
        - exfalso. assert (Z : false = true); [|discriminate]. apply Hb. split.
          + exists e. split; [rewrite El; now left|]. split; auto. apply Hnr. now left.
          + intros (x & Y1 & Y2). apply Y. apply in_flat_map. exists x. auto. }
      destruct X as (x & Hx & Hd). rewrite El in Hx. exists x. split; [exact Hx|]. intros X. rewrite X in Hd. destruct Hd.
Qed.

(** What a forced reload does when something is loaded: everything is stopped; if some loaded controller
    depends on another one, the reload fails and exactly a prefix of the loaded list, containing only
    controllers without dependencies, is gone; otherwise everything is unloaded and the call succeeds, or
    aborts the process if assertions are enabled. *)
Theorem C65_forced_reload_outcome :
  forall asserts l1 l2 (m : mgr), reachable H m -> please m = false -> loaded m <> [] ->
  exists m' gone, reachable H m' /\ please m' = false /\
    loaded m = gone ++ loaded m' /\
    (forall e, In e gone -> dep_names m (e_ptr e) = []) /\
    (forall e, In e (loaded m) -> ~ running m' (e_ptr e)) /\
    (forall q, co_deps (heap m' q) = co_deps (heap m q)) /\
    ((exists e, In e (loaded m) /\ dep_names m (e_ptr e) <> []) ->
       reloadControllerLibraries H asserts true l1 l2 m = Ok (false, m')) /\
    ((forall e, In e (loaded m) -> dep_names m (e_ptr e) = []) ->
       loaded m' = [] /\
       reloadControllerLibraries H asserts true l1 l2 m =
         if asserts then Abort else Ok (true, log EvNewLoader m')).
Proof.
  intros asserts l1 l2 m Hr Hp Hne. pose proof (inv_of H HP m Hr) as I.
  assert (Enames : getControllerNames m [] = map e_name (loaded m)) by reflexivity.
  destruct (C14_best_effort_ignores_exactly_unknown H HP [] (map e_name (loaded m)) BEST_EFFORT l1 l2 m Hr Hp)
    as [(m1 & E1) _]; [discriminate|].
  destruct (call_switch H HP _ _ _ _ _ m _ m1 Hr Hp E1) as (Hr1 & Hp1 & Hl & _ & Hd & b & Eb & _ & _ & Hrun).
  injection Eb as <-. specialize (Hrun eq_refl).
  assert (Hnr : forall e, In e (loaded m) -> ~ running m1 (e_ptr e)).
  { intros e He. rewrite (Hrun e He). intros [[]|[_ X]]. apply X. now apply in_map. }
  destruct (unload_all_forward (loaded m) m1 Hr1 Hp1 Hl Hnr)
    as (ok & m' & E & Hr' & Hp' & Hh & gone & rest & Es & El & Hg & Hok & Hko).
  assert (Hdn : forall e, dep_names m1 e = dep_names m e) by (intros e; unfold dep_names; now rewrite Hd).
  exists m', gone. split; auto. split; auto. split; [congruence|].
  split; [intros e He; rewrite <- Hdn; auto|]. split; [intros e He; unfold running; rewrite Hh; now apply Hnr|].
  split; [intros q; now rewrite Hh|].
  unfold reloadControllerLibraries. rewrite Enames. rewrite E1. cbn [bind]. rewrite E. cbn [bind].
  destruct (map e_name (loaded m)) as [|n0 ns0] eqn:En; [destruct (loaded m); [tauto|discriminate]|].
  cbn [negb]. split.
  - intros (e & He & Hde). destruct ok; [exfalso|reflexivity]. apply Hde. rewrite <- Hdn.
    apply Hg. rewrite (Hok eq_refl), app_nil_r in Es. now rewrite <- Es.
  - intros Hall. destruct ok.
    + split; [rewrite El; auto|]. unfold cassert, getControllerNames. rewrite app_length. simpl.
      destruct asserts; reflexivity.
    + exfalso. destruct (Hko eq_refl) as (e & He & X). apply X. rewrite Hdn. auto.
Qed.

Lemma deps_dec (m : mgr) l :
  (exists e, In e l /\ dep_names m (e_ptr e) <> []) \/ (forall e, In e l -> dep_names m (e_ptr e) = []).
Proof.
  induction l as [|x l IH]; [right; intros ? []|]. destruct (dep_names m (e_ptr x)) eqn:Ex.
  - destruct IH as [(y & Hy & Hy')|IH]; [left; exists y; split; auto; now right|]. right.
    intros e [<-|He]; auto.
  - left. exists x. split; [now left|congruence].
Qed.

Lemma forced_reload_step asserts l1 l2 (m m' : mgr) ok :
  reachable H m -> please m = false -> reloadControllerLibraries H asserts true l1 l2 m = Ok (ok, m') ->
  reachable H m' /\ please m' = false /\
  exists gone, loaded m = gone ++ loaded m' /\ (forall e, In e gone -> dep_names m (e_ptr e) = []) /\
    (forall e, In e (loaded m) -> ~ running m' (e_ptr e)).
Proof.
  intros Hr Hp E. destruct (loaded m) as [|e0 l0] eqn:El.
  - unfold reloadControllerLibraries, getControllerNames in E. change (lists m (cur m)) with (loaded m) in E.
    rewrite El in E. simpl in E. inversion E; subst.
    split; [eapply reach_step; [exact Hr|apply step_newloader; auto]|]. split; auto.
    exists []. unfold loaded in *. simpl. rewrite El. repeat split; auto; intros ? [].
  - destruct (C65_forced_reload_outcome asserts l1 l2 m Hr Hp) as (m1 & gone & Hr1 & Hp1 & Hg & Hd & Hn & _ & X & Y).
    { rewrite El. discriminate. }
    pose proof (deps_dec m (loaded m)) as Z.
    rewrite <- El. destruct Z as [Z|Z].
    + rewrite (X Z) in E. inversion E; subst. split; auto. split; auto. exists gone. auto.
    + destruct (Y Z) as [Y1 Y2]. rewrite Y2 in E. destruct asserts; [discriminate|]. inversion E; subst.
      split; [eapply reach_step; [exact Hr1|apply step_newloader; auto]|]. split; auto.
      exists gone. auto.
Qed.

Lemma load_each_ends (plugins : plugin_env -> Prop) asserts k : forall l (m m' : mgr),
  reachable H m -> please m = false -> (forall e, In e (loaded m) -> ~ running m (e_ptr e)) ->
  (forall env n, plugins env -> In n l -> ~ In n (loaded_names m) -> stands_alone env n) ->
  run H alone plugins asserts m (load_each l k) m' ->
  exists m1, reachable H m1 /\ please m1 = false /\ (forall e, In e (loaded m1) -> ~ running m1 (e_ptr e)) /\
    (forall n, In n (loaded_names m1) <-> In n (loaded_names m) \/ In n l) /\
    run H alone plugins asserts m1 k m'.
Proof.
  induction l as [|n l IH]; intros m m' Hr Hp Hnr Hpl Hrun.
  - exists m. simpl in Hrun. split; auto. split; auto. split; auto. split; auto. intros n. simpl. tauto.
  - simpl in Hrun. destruct (run_cases _ _ _ _ _ _ _ Hrun) as (m0 & D & env & a & m1 & Hp0 & Hpe & E & Hrun1). clear Hrun.
    destruct (drift_alone H HP m m0 Hr Hp D) as (Hr0 & _ & L0 & _ & S0 & _).
    destruct (call_load H HP env n m0 a m1 Hr0 Hp0 E) as (Hr1 & Hp1 & Hh & X).
    assert (Ln : loaded_names m0 = loaded_names m) by (unfold loaded_names; now rewrite L0).
    assert (G : run H alone plugins asserts m1 (load_each l k) m' /\
                (forall x, In x (loaded_names m1) <-> In x (loaded_names m) \/ x = n) /\
                (forall e, In e (loaded m1) -> ~ running m1 (e_ptr e))).
    { destruct X as [(-> & _ & p & Hl & Hp')|(Ha & Hl)].
      - split; auto. split.
        + intros x. unfold loaded_names. rewrite Hl, L0, map_app, in_app_iff. simpl. intuition.
        + intros e He. rewrite Hl in He. apply in_app_iff in He. destruct He as [He|[<-|[]]]; auto.
          unfold running. rewrite Hh, S0 by auto. apply Hnr. now rewrite <- L0.
      - assert (Hin : In n (loaded_names m)).
        { destruct (in_dec string_dec n (loaded_names m)) as [Y|Y]; auto. exfalso. apply Ha.
          eapply (stands_alone_loads H HP env n m0); eauto; [|now rewrite Ln]. apply Hpl; auto. now left. }
        assert (a = Returned false) as ->.
        { destruct (C10_duplicate_load_rejected H HP env n m0 Hr0 Hp0) as (m2 & E2 & _); [now rewrite Ln|congruence]. }
        split; auto. split.
        + intros x. unfold loaded_names. rewrite Hl, L0. fold (loaded_names m). intuition. now subst.
        + intros e He. rewrite Hl in He. unfold running. rewrite Hh, S0 by auto. apply Hnr. now rewrite <- L0. }
    destruct G as (Hrun & Hn1 & Hnr1).
    destruct (IH m1 m' Hr1 Hp1 Hnr1) as (m2 & Hr2 & Hp2 & Hnr2 & Hn2 & Hrun2); auto.
    { intros env' x He Hx Hxn. apply Hpl; auto; [now right|]. intros Y. apply Hxn. apply Hn1. auto. }
    exists m2. split; auto. split; auto. split; auto. split; auto.
    intros x. rewrite Hn2, Hn1. simpl. intuition.
Qed.

Lemma listed_names (m : mgr) : reachable H m ->
  Permutation (map fst (map (fun e => (e_name e, runningb m (e_ptr e))) (order m))) (loaded_names m).
Proof.
  intros Hr. rewrite map_map. simpl. apply Permutation_map. apply order_perm. exact (inv_of H HP m Hr).
Qed.
Lemma listed_running (m : mgr) n : reachable H m ->
  (In n (map fst (filter snd (map (fun e => (e_name e, runningb m (e_ptr e))) (order m)))) <-> is_running m n).
Proof.
  intros Hr. pose proof (order_perm m (inv_of H HP m Hr)) as P. unfold is_running. rewrite in_map_iff. split.
  - intros ([x b] & <- & Hx). apply filter_In in Hx. destruct Hx as [Hx Hb]. simpl in *. subst b.
    apply in_map_iff in Hx. destruct Hx as (e & Ee & He). injection Ee as <- Hb. exists e.
    split; [eapply Permutation_in; eauto|]. split; auto. unfold running. unfold runningb, isRunning in Hb.
    now destruct (co_state (heap m (e_ptr e))).
  - intros (e & He & <- & Hru). exists (e_name e, true). split; auto. apply filter_In. split; auto.
    apply in_map_iff. exists e. split; [|eapply Permutation_in; [apply Permutation_sym; exact P|exact He]].
    unfold runningb. rewrite Hru. reflexivity.
Qed.

(** C65: reload-libraries --restore, when the controllers without dependencies can be loaded again: whatever
    the reload answers, afterwards the same controllers are loaded and the same ones are running. *)
Theorem C65_restore_restores :
  forall (plugins : plugin_env -> Prop) asserts (m m' : mgr),
    reachable H m -> please m = false ->
    (forall env e, plugins env -> In e (loaded m) -> dep_names m (e_ptr e) = [] -> stands_alone env (e_name e)) ->
    run H alone plugins asserts m (reload_libraries true true) m' ->
    Permutation (loaded_names m') (loaded_names m) /\ forall n, is_running m' n <-> is_running m n.
Proof.
  intros plugins asserts m m' Hr Hp Hpl Hrun. unfold reload_libraries in Hrun.
  destruct (run_cases _ _ _ _ _ _ _ Hrun) as (m0 & D & ans & Hp0 & E & Hrun1). clear Hrun.
  destruct (drift_alone H HP m m0 Hr Hp D) as (Hr0 & _ & L0 & _ & S0 & D0). clear D.
  rewrite (list_spec asserts m0 (inv_of H HP m0 Hr0)) in E. injection E as <-.
  destruct (run_cases _ _ _ _ _ _ _ Hrun1) as (m1 & D & l1 & l2 & ok & m2 & Hp1 & E & Hrun2). clear Hrun1.
  destruct (drift_alone H HP m0 m1 Hr0 Hp0 D) as (Hr1 & _ & L1 & _ & S1 & D1). clear D.
  destruct (forced_reload_step asserts l1 l2 m1 m2 ok Hr1 Hp1 E) as (Hr2 & Hp2 & gone & Hg & Hgd & Hnr).
  unfold restore_script in Hrun2. set (orig := map _ (order m0)) in *.
  assert (Hon : forall n, In n (map fst orig) <-> In n (loaded_names m)).
  { intros n. unfold loaded_names. rewrite <- L0. fold (loaded_names m0). split; intros X; (eapply Permutation_in; [|exact X]).
    - apply listed_names; auto. - apply Permutation_sym, listed_names; auto. }
  assert (Hor : forall n, In n (map fst (filter snd orig)) <-> is_running m n).
  { intros n. unfold orig. rewrite (listed_running m0 n Hr0). unfold is_running, running. rewrite L0.
    split; intros (e & X1 & X2 & X3); exists e; rewrite ?S0 in *; auto. }
  unshelve epose proof (load_each_ends plugins asserts _ (map fst orig) m2 m' Hr2 Hp2 _ _ Hrun2) as LE.
  { intros e He. apply Hnr. rewrite Hg. apply in_or_app. now right. }
  { intros env n Henv Hn Hnn. apply Hon in Hn. unfold loaded_names in Hn. apply in_map_iff in Hn.
    destruct Hn as (e & <- & He). apply Hpl; auto.
    assert (In e gone \/ In e (loaded m2)) as [X|X].
    { apply in_app_iff. rewrite <- Hg, L1, L0. exact He. }
    - rewrite <- (Hgd e X). unfold dep_names. now rewrite D1, D0.
    - elim Hnn. now apply in_map. }
  destruct LE as (m3 & Hr3 & Hp3 & Hnr3 & Hn3 & Hrun3).
  destruct (run_cases _ _ _ _ _ _ _ Hrun3) as (m4 & D & k1 & k2 & a & m5 & Hp4 & E5 & Hrun5). clear Hrun2 Hrun3.
  destruct (drift_alone H HP m3 m4 Hr3 Hp3 D) as (Hr4 & _ & L4 & _ & S4 & _).
  destruct (call_switch H HP _ _ _ _ _ m4 a m5 Hr4 Hp4 E5) as (Hr5 & Hp5 & L5 & _ & _ & b & -> & Hb & _ & Hru).
  destruct (run_cases _ _ _ _ _ _ _ Hrun5) as (? & _ & _ & <-).
  assert (b = true) as ->.
  { destruct b; auto. destruct (proj1 Hb eq_refl) as [X _]. discriminate. }
  assert (Hnames : forall n, In n (loaded_names m5) <-> In n (loaded_names m)).
  { intros n. replace (loaded_names m5) with (loaded_names m3) by (unfold loaded_names; now rewrite L5, L4).
    rewrite Hn3, Hon. split; [|auto]. intros [X|X]; auto. unfold loaded_names in *. rewrite <- L0, <- L1, Hg, map_app.
    apply in_or_app. now right. }
  split.
  - apply NoDup_Permutation; auto; [apply (inv_names m5 (inv_of H HP m5 Hr5))|apply (inv_names m (inv_of H HP m Hr))].
  - intros n. rewrite <- Hor. split.
    + intros (e & He & <- & Hrn). rewrite L5 in He. apply (Hru eq_refl e He) in Hrn.
      destruct Hrn as [X|[X _]]; auto. elim (Hnr3 e); [now rewrite <- L4|]. unfold running. now rewrite <- S4.
    + intros X. assert (Hin : In n (loaded_names m5)).
      { apply Hnames. apply Hor in X. destruct X as (e & He & <- & _). now apply in_map. }
      apply in_map_iff in Hin. destruct Hin as (e & <- & He). exists e. split; auto. split; auto.
      rewrite L5 in He. apply (Hru eq_refl e He). now left.
Qed.

(* ------------------------------------------------------------------ C69 *)
Lemma stop_each_ends plugins asserts k : forall l (m m' : mgr),
  reachable H m -> please m = false -> run H alone plugins asserts m (stop_each l k) m' ->
  exists m1, reachable H m1 /\ please m1 = false /\ loaded m1 = loaded m /\
    (forall q, co_deps (heap m1 q) = co_deps (heap m q)) /\
    (forall e, In e (loaded m) -> (running m1 (e_ptr e) <-> running m (e_ptr e) /\ ~ In (e_name e) l)) /\
    run H alone plugins asserts m1 k m'.
Proof.
  induction l as [|n l IH]; intros m m' Hr Hp Hrun; simpl in Hrun.
  - exists m. split; auto. split; auto. split; auto. split; auto. split; auto. intros e He. simpl. tauto.
  - destruct (run_cases _ _ _ _ _ _ _ Hrun) as (m0 & D & l1 & l2 & a & m1 & Hp0 & E & Hrun1). clear Hrun.
    destruct (drift_alone H HP m m0 Hr Hp D) as (Hr0 & _ & L0 & _ & S0 & D0).
    destruct (call_switch H HP _ _ _ _ _ m0 a m1 Hr0 Hp0 E) as (Hr1 & Hp1 & L1 & _ & D1 & b & -> & Hb & Hf & Ht).
    destruct (IH m1 m' Hr1 Hp1 Hrun1) as (m2 & Hr2 & Hp2 & L2 & D2 & R2 & Hrun2). exists m2.
    split; auto. split; auto. split; [congruence|]. split; [intros q; now rewrite D2, D1, D0|]. split; auto.
    intros e He. assert (He1 : In e (loaded m1)) by now rewrite L1, L0. rewrite (R2 e He1).
    assert (X : running m1 (e_ptr e) <-> running m (e_ptr e) /\ e_name e <> n).
    { destruct b.
      - rewrite (Ht eq_refl e) by now rewrite L0. unfold running. rewrite S0. simpl. intuition.
      - unfold running. rewrite (Hf eq_refl), S0. split; [|tauto]. intros X. split; auto. intros <-.
        destruct (proj1 Hb eq_refl) as [_ Y]. apply Y. split; [intros ? []|]. intros x [<-|[]].
        unfold loaded_names. rewrite L0. now apply in_map. }
    rewrite X. simpl. intuition.
Qed.

Definition outside_names (l : list string) (e : entry) : bool := if in_dec string_dec (e_name e) l then false else true.

Lemma unload_each_gone plugins asserts : forall l (m m' : mgr),
  reachable H m -> please m = false -> NoDup l ->
  (forall e, In e (loaded m) -> In (e_name e) l -> ~ running m (e_ptr e)) ->
  run H alone plugins asserts m (unload_each l) m' ->
  reachable H m' /\ please m' = false /\
  (forall e, In e (loaded m') -> In e (loaded m)) /\
  (forall e, In e (loaded m) -> ~ In (e_name e) l -> In e (loaded m')) /\
  (forall q, co_state (heap m' q) = co_state (heap m q)) /\
  ((forall n, In n l -> ~ In n (loaded_names m')) <->
   (forall l1 n l2, l = l1 ++ n :: l2 -> forall e, In e (loaded m) -> In n (dep_names m (e_ptr e)) -> In (e_name e) l1)).
Proof.
  induction l as [|n l IH]; intros m m' Hr Hp Nd Hnr Hrun; simpl in Hrun.
  - destruct (run_cases _ _ _ _ _ _ _ Hrun) as (m0 & _ & _ & <-). repeat (split; auto).
    + intros _ [|] ? ? X; discriminate.
  - destruct (run_cases _ _ _ _ _ _ _ Hrun) as (m0 & D & a & m1 & Hp0 & E & Hrun1). clear Hrun.
    destruct (drift_alone H HP m m0 Hr Hp D) as (Hr0 & _ & L0 & _ & S0 & D0).
    destruct (call_unload H HP n m0 a m1 Hr0 Hp0 E) as (Hr1 & Hp1 & Hh & b & -> & Hb & Hl).
    inversion Nd as [|? ? Nn Nd']; subst.
    assert (Hsub : forall e, In e (loaded m1) -> In e (loaded m)).
    { intros e He. rewrite Hl, L0 in He. destruct b; auto. apply filter_In in He. tauto. }
    assert (Hkeep : forall e, In e (loaded m) -> e_name e <> n -> In e (loaded m1)).
    { intros e He Hn. rewrite Hl, L0. destruct b; auto. apply filter_In. split; auto.
      destruct (String.eqb_spec (e_name e) n); auto. }
    assert (Hst1 : forall q, co_state (heap m1 q) = co_state (heap m q)) by (intros q; rewrite Hh; apply S0).
    assert (Hdn : forall q, dep_names m1 q = dep_names m q) by (intros q; unfold dep_names; rewrite Hh; now rewrite D0).
    destruct (IH m1 m' Hr1 Hp1 Nd') as (Hr' & Hp' & Hs' & Hk' & St' & Hiff); auto.
    { intros e He Hin. unfold running. rewrite Hst1. apply Hnr; auto. now right. }
    split; auto. split; auto. split; auto. split; [|split].
    + intros e He Hn. apply Hk'; [|intros X; apply Hn; now right]. apply Hkeep; auto. intros Q. apply Hn. left. auto.
    + intros q. now rewrite St', Hst1.
    + assert (Hdep : (exists e, In e (loaded m) /\ In n (dep_names m (e_ptr e))) <-> has_dependent m0 n).
      { unfold has_dependent, dep_names. rewrite L0. split; intros (e & X1 & X2); exists e; rewrite D0 in *; auto. }
      assert (Hgone : ~ In n (loaded_names m1) <-> ~ has_dependent m0 n).
      { split.
        - intros X Y. assert (Z : In n (loaded_names m)).
          { apply Hdep in Y. destruct Y as (e & Y1 & Y2). pose proof (inv_of H HP m Hr) as I.
            apply (inv_got m I e _ Y1) in Y2. apply in_map_iff in Y2. destruct Y2 as ([n' p] & En & Hg). simpl in En. subst n'.
            apply in_split in Y1. destruct Y1 as (k1 & k2 & El). pose proof (inv_deps m I _ _ _ El _ _ Hg) as Q.
            unfold loaded_names. rewrite El, map_app. apply in_or_app. left. now apply (in_map e_name) in Q. }
          assert (b = false) as ->.
          { destruct b; auto. destruct (proj1 Hb eq_refl) as [_ Q]. tauto. }
          apply X. unfold loaded_names. now rewrite Hl, L0.
        - intros Y X. unfold loaded_names in X. apply in_map_iff in X. destruct X as (e & En & He).
          assert (b = true) as ->.
          { apply Hb. split; auto. exists e. split; [rewrite L0; auto|]. split; auto. unfold running. rewrite S0.
            apply Hnr; auto. left. auto. }
          rewrite Hl in He. apply filter_In in He. destruct He as [_ He]. rewrite En, String.eqb_refl in He. discriminate. }
      split.
      * intros G. assert (Hno : ~ has_dependent m0 n).
        { apply Hgone. intros X. apply (G n); [now left|]. unfold loaded_names in X. apply in_map_iff in X.
          destruct X as (e & <- & He). apply in_map. apply Hk'; auto. }
        intros [|x l1] n' l2 El e He Hd; simpl in El; injection El as <- El.
        -- elim Hno. apply Hdep. eauto.
        -- destruct (string_dec (e_name e) n) as [->|Hne]; [now left|]. right.
           eapply (proj1 Hiff); [intros y Hy; apply G; now right|exact El|now apply Hkeep|now rewrite Hdn].
      * intros G. assert (Hno : ~ has_dependent m0 n).
        { intros X. apply Hdep in X. destruct X as (e & X1 & X2). exact (G [] n l eq_refl e X1 X2). }
        intros y [<-|Hy].
        -- intros X. apply Hgone in Hno. apply Hno. unfold loaded_names in *. apply in_map_iff in X.
           destruct X as (e & <- & He). apply in_map. auto.
        -- apply (proj2 Hiff); auto. intros l1 n' l2 El e He Hd. rewrite Hdn in Hd.
           destruct (G (n :: l1) n' l2) with (e := e) as [X|X]; auto; [now rewrite El|].
           exfalso. apply Hgone in Hno. apply Hno. rewrite X. now apply in_map.
Qed.

(** C69: "pr2_controller_manager kill": all named controllers are gone afterwards exactly if the command line
    names, for every one of them, all controllers depending on it, and names them earlier. *)
Theorem C69_kill_complete_iff_dependents_first :
  forall plugins asserts ns (m m' : mgr),
    reachable H m -> please m = false -> NoDup ns -> run H alone plugins asserts m (cmd_kill ns) m' ->
    ((forall n, In n ns -> ~ In n (loaded_names m')) <->
     (forall before n after, ns = before ++ n :: after ->
        forall e, In e (loaded m) -> In n (dep_names m (e_ptr e)) -> In (e_name e) before)).
Proof.
  intros plugins asserts ns m m' Hr Hp Nd Hrun. unfold cmd_kill in Hrun.
  destruct (stop_each_ends plugins asserts _ ns m m' Hr Hp Hrun) as (m1 & Hr1 & Hp1 & L1 & D1 & R1 & Hrun1).
  destruct (unload_each_gone plugins asserts ns m1 m' Hr1 Hp1 Nd) as (_ & _ & _ & _ & _ & Hiff); auto.
  { intros e He Hn X. rewrite L1 in He. apply (R1 e He) in X. tauto. }
  rewrite Hiff, L1. unfold dep_names. setoid_rewrite D1. reflexivity.
Qed.

(** ... and it never touches any other controller; the named ones that remain loaded are stopped. *)
Theorem C69_kill_touches_only_named :
  forall plugins asserts ns (m m' : mgr),
    reachable H m -> please m = false -> NoDup ns -> run H alone plugins asserts m (cmd_kill ns) m' ->
    (forall e, In e (loaded m') -> In e (loaded m)) /\
    (forall e, In e (loaded m) -> ~ In (e_name e) ns -> In e (loaded m') /\ (running m' (e_ptr e) <-> running m (e_ptr e))) /\
    (forall e, In e (loaded m') -> In (e_name e) ns -> ~ running m' (e_ptr e)).
Proof.
  intros plugins asserts ns m m' Hr Hp Nd Hrun. unfold cmd_kill in Hrun.
  destruct (stop_each_ends plugins asserts _ ns m m' Hr Hp Hrun) as (m1 & Hr1 & Hp1 & L1 & D1 & R1 & Hrun1).
  destruct (unload_each_gone plugins asserts ns m1 m' Hr1 Hp1 Nd) as (_ & _ & Hs & Hk & St & _); auto.
  { intros e He Hn X. rewrite L1 in He. apply (R1 e He) in X. tauto. }
  rewrite L1 in *. split; auto. split.
  - intros e He Hn. split; auto. unfold running at 1. rewrite St. fold (running m1 (e_ptr e)). rewrite (R1 e He). tauto.
  - intros e He Hn. unfold running. rewrite St. fold (running m1 (e_ptr e)). rewrite (R1 e (Hs e He)). tauto.
Qed.

(** "pr2_controller_manager spawn": unless creating one of the plugins throws, every named controller that is
    loaded afterwards is running. *)
Lemma spawn_load_part (plugins : plugin_env -> Prop) asserts k : forall l (m m' : mgr),
  reachable H m -> please m = false -> (forall env n, plugins env -> In n l -> construct env n <> None) ->
  run H alone plugins asserts m (load_each l k) m' ->
  exists m1, reachable H m1 /\ please m1 = false /\ run H alone plugins asserts m1 k m'.
Proof.
  induction l as [|n l IH]; intros m m' Hr Hp Hpl Hrun; simpl in Hrun; [eauto|].
  destruct (run_cases _ _ _ _ _ _ _ Hrun) as (m0 & D & env & a & m1 & Hp0 & Hpe & E & Hrun1). clear Hrun.
  destruct (drift_alone H HP m m0 Hr Hp D) as (Hr0 & _).
  destruct (call_load H HP env n m0 a m1 Hr0 Hp0 E) as (Hr1 & Hp1 & _).
  destruct a as [b|]; [eapply (IH m1); eauto; intros; apply Hpl; auto; now right|]. exfalso.
  unfold loadController, load_body in E. pose proof (Hpl env n Hpe (or_introl eq_refl)) as X.
  destruct (existsb _ _); [discriminate|]. destruct (negb _); [discriminate|].
  destruct (construct env n) as [[[ty pr]|]|]; [|discriminate|tauto].
  destruct (initRequest _ _ _ _) as [[[ir cbs] st] d]. destruct ir as [[|]|]; try discriminate.
  destruct (scheduleControllers _ _); discriminate.
Qed.
Lemma start_each_ends plugins asserts : forall l (m m' : mgr),
  reachable H m -> please m = false -> run H alone plugins asserts m (start_each l Done) m' ->
  loaded m' = loaded m /\
  (forall e, In e (loaded m) -> running m (e_ptr e) \/ In (e_name e) l -> running m' (e_ptr e)).
Proof.
  induction l as [|n l IH]; intros m m' Hr Hp Hrun; simpl in Hrun.
  - destruct (run_cases _ _ _ _ _ _ _ Hrun) as (m0 & _ & _ & <-). split; auto. intros e He [X|[]]; auto.
  - destruct (run_cases _ _ _ _ _ _ _ Hrun) as (m0 & D & l1 & l2 & a & m1 & Hp0 & E & Hrun1). clear Hrun.
    destruct (drift_alone H HP m m0 Hr Hp D) as (Hr0 & _ & L0 & _ & S0 & D0).
    destruct (call_switch H HP _ _ _ _ _ m0 a m1 Hr0 Hp0 E) as (Hr1 & Hp1 & L1 & _ & D1 & b & -> & Hb & Hf & Ht).
    destruct (IH m1 m' Hr1 Hp1 Hrun1) as (L2 & R2). split; [congruence|].
    intros e He X. apply R2; [now rewrite L1, L0|].
    destruct b.
    + rewrite (Ht eq_refl e) by now rewrite L0. unfold running in *. rewrite S0. simpl in *. tauto.
    + destruct X as [X|[X|X]]; [left; unfold running; now rewrite (Hf eq_refl), S0| |now right].
      exfalso. destruct (proj1 Hb eq_refl) as [_ Y]. apply Y. split; [|intros ? []]. intros x [<-|[]].
      unfold loaded_names. rewrite L0, X. now apply in_map.
Qed.
Theorem C69_spawn_runs_what_it_loaded :
  forall (plugins : plugin_env -> Prop) asserts ns (m m' : mgr),
    reachable H m -> please m = false -> (forall env n, plugins env -> In n ns -> construct env n <> None) ->
    run H alone plugins asserts m (cmd_spawn ns) m' ->
    forall n, In n ns -> In n (loaded_names m') -> is_running m' n.
Proof.
  intros plugins asserts ns m m' Hr Hp Hpl Hrun n Hn Hl. unfold cmd_spawn in Hrun.
  destruct (spawn_load_part plugins asserts _ ns m m' Hr Hp Hpl Hrun) as (m1 & Hr1 & Hp1 & Hrun1).
  destruct (start_each_ends plugins asserts ns m1 m' Hr1 Hp1 Hrun1) as [L R].
  unfold loaded_names in Hl. apply in_map_iff in Hl. destruct Hl as (e & <- & He). exists e.
  split; auto. split; auto. apply R; [now rewrite <- L|auto].
Qed.

(* ------------------------------------------------------------------ C70 *)
Section Unspawner.
Variables (plugins : plugin_env -> Prop) (asserts : bool) (enum : enumeration) (to_inhibit : list string).
Hypothesis enum_ok : forall l n, In n (enum l) <-> In n l.
Notation run := (run H alone plugins asserts).

Lemma restart_ends inhibited (m m' : mgr) :
  reachable H m -> please m = false -> run m (restart_inhibited enum inhibited) m' ->
  loaded m' = loaded m /\
  forall e, In e (loaded m) -> (running m' (e_ptr e) <-> running m (e_ptr e) \/ In (e_name e) inhibited).
Proof.
  intros Hr Hp Hrun. unfold restart_inhibited in Hrun.
  destruct (run_cases _ _ _ _ _ _ _ Hrun) as (m0 & D & l1 & l2 & a & m1 & Hp0 & E & Hrun1). clear Hrun.
  destruct (drift_alone H HP m m0 Hr Hp D) as (Hr0 & _ & L0 & _ & S0 & D0).
  destruct (call_switch H HP _ _ _ _ _ m0 a m1 Hr0 Hp0 E) as (Hr1 & Hp1 & L1 & _ & D1 & b & -> & Hb & Hf & Ht).
  destruct (run_cases _ _ _ _ _ _ _ Hrun1) as (? & _ & _ & <-).
  assert (b = true) as -> by (destruct b; auto; destruct (proj1 Hb eq_refl) as [X _]; discriminate).
  split; [congruence|]. intros e He. rewrite (Ht eq_refl e) by now rewrite L0. rewrite enum_ok.
  unfold running at 1. rewrite S0. unfold running. simpl. tauto.
Qed.

Lemma one_round (m : mgr) listed : reachable H m -> listControllers asserts m = Ok listed ->
  forall n, In n (map fst (filter (fun c => (if in_dec string_dec (fst c) to_inhibit then true else false) && snd c) listed))
            <-> In n to_inhibit /\ is_running m n.
Proof.
  intros Hr E n. rewrite (list_spec asserts m (inv_of H HP m Hr)) in E. injection E as <-.
  rewrite <- (listed_running m n Hr). rewrite !in_map_iff. split.
  - intros (c & <- & Hc). apply filter_In in Hc. destruct Hc as [H1 H2]. apply andb_true_iff in H2. destruct H2 as [H2 H3].
    destruct (in_dec string_dec (fst c) to_inhibit); [|discriminate]. split; auto. exists c. split; auto. apply filter_In. auto.
  - intros (Hn & c & <- & Hc). apply filter_In in Hc. destruct Hc as [H1 H2]. exists c. split; auto. apply filter_In. split; auto.
    rewrite H2. destruct (in_dec string_dec (fst c) to_inhibit); auto.
Qed.

Lemma running_name (m : mgr) e : reachable H m -> In e (loaded m) -> (is_running m (e_name e) <-> running m (e_ptr e)).
Proof.
  intros Hr He. unfold is_running. split; [|eauto].
  intros (e' & He' & En & X). assert (e' = e) as -> by (eapply nodup_names_inj; [apply (inv_names m (inv_of H HP m Hr))| | |]; auto). auto.
Qed.

Lemma unspawner_ends : forall rounds inhibited (m m' : mgr),
  reachable H m -> please m = false -> run m (unspawner_loop enum to_inhibit false rounds inhibited) m' ->
  loaded m' = loaded m /\
  forall e, In e (loaded m) -> (running m' (e_ptr e) <-> running m (e_ptr e) \/ In (e_name e) inhibited).
Proof.
  induction rounds as [|rounds IH]; intros inhibited m m' Hr Hp Hrun; [apply restart_ends; auto|].
  simpl in Hrun. destruct (run_cases _ _ _ _ _ _ _ Hrun) as (m0 & D & ans & Hp0 & E & Hrun1). clear Hrun.
  destruct (drift_alone H HP m m0 Hr Hp D) as (Hr0 & _ & L0 & _ & S0 & D0).
  pose proof (one_round m0 ans Hr0 E) as O.
  destruct (map fst (filter _ ans)) as [|n ns] eqn:Est.
  - destruct (IH _ _ _ Hr0 Hp0 Hrun1) as [L R]. split; [congruence|]. intros e He. rewrite (R e) by now rewrite L0.
    unfold running. rewrite S0. tauto.
  - destruct (run_cases _ _ _ _ _ _ _ Hrun1) as (m1 & D1 & l1 & l2 & a & m2 & Hp1 & E2 & Hrun2). clear Hrun1.
    destruct (drift_alone H HP m0 m1 Hr0 Hp0 D1) as (Hr1 & _ & L1 & _ & S1 & _).
    destruct (call_switch H HP _ _ _ _ _ m1 a m2 Hr1 Hp1 E2) as (Hr2 & Hp2 & L2 & _ & _ & b & -> & Hb & _ & Ht).
    assert (b = true) as -> by (destruct b; auto; destruct (proj1 Hb eq_refl) as [X _]; discriminate).
    destruct (IH _ _ _ Hr2 Hp2 Hrun2) as [L R]. split; [congruence|]. intros e He.
    rewrite (R e) by congruence. rewrite (Ht eq_refl e) by congruence. rewrite in_app_iff.
    assert (X : In (e_name e) (n :: ns) -> running m (e_ptr e)).
    { intros Y. apply O in Y. destruct Y as [_ Y]. apply running_name in Y; auto; [|congruence]. unfold running in *. now rewrite <- S0. }
    assert (Z : running m1 (e_ptr e) <-> running m (e_ptr e)) by (unfold running; rewrite S1, S0; tauto).
    rewrite Z. destruct (in_dec string_dec (e_name e) (n :: ns)); simpl in *; tauto.
Qed.

(** C70: an unspawner interrupted while it sleeps, however many rounds it made: the same controllers are
    running as before it was started. *)
Theorem C70_unspawner_restores : forall rounds (m m' : mgr),
  reachable H m -> please m = false -> run m (unspawner enum to_inhibit false rounds) m' ->
  loaded m' = loaded m /\ forall e, In e (loaded m) -> (running m' (e_ptr e) <-> running m (e_ptr e)).
Proof.
  intros rounds m m' Hr Hp Hrun. destruct (unspawner_ends rounds [] m m' Hr Hp Hrun) as [L R]. split; auto.
  intros e He. rewrite (R e He). simpl. tauto.
Qed.

(** ... but interrupted while it waits for the answer to its stop request, it forgets what it has just
    stopped: those controllers stay stopped. *)
Theorem C70_interrupted_call_is_forgotten : forall (m m' : mgr),
  reachable H m -> please m = false -> run m (unspawner enum to_inhibit true 1) m' ->
  loaded m' = loaded m /\
  forall e, In e (loaded m) -> (running m' (e_ptr e) <-> running m (e_ptr e) /\ ~ In (e_name e) to_inhibit).
Proof.
  intros m m' Hr Hp Hrun. unfold unspawner in Hrun. cbn [unspawner_loop] in Hrun.
  destruct (run_cases _ _ _ _ _ _ _ Hrun) as (m0 & D & ans & Hp0 & E & Hrun1). clear Hrun.
  destruct (drift_alone H HP m m0 Hr Hp D) as (Hr0 & _ & L0 & _ & S0 & D0).
  pose proof (one_round m0 ans Hr0 E) as O. cbv zeta in Hrun1.
  assert (O' : forall e, In e (loaded m) -> (In (e_name e) to_inhibit /\ is_running m0 (e_name e) <->
                 In (e_name e) to_inhibit /\ running m (e_ptr e))).
  { intros e He. rewrite running_name by (auto; congruence). unfold running. rewrite S0. tauto. }
  destruct (map fst (filter _ ans)) as [|n ns] eqn:Est.
  - destruct (restart_ends [] m0 m' Hr0 Hp0 Hrun1) as [L R]. split; [congruence|]. intros e He. rewrite (R e) by now rewrite L0.
    specialize (O (e_name e)). rewrite (O' e He) in O. unfold running in *. rewrite S0. simpl in *. tauto.
  - destruct (run_cases _ _ _ _ _ _ _ Hrun1) as (m1 & D1 & l1 & l2 & a & m2 & Hp1 & E2 & Hrun2). clear Hrun1.
    destruct (drift_alone H HP m0 m1 Hr0 Hp0 D1) as (Hr1 & _ & L1 & _ & S1 & _).
    destruct (call_switch H HP _ _ _ _ _ m1 a m2 Hr1 Hp1 E2) as (Hr2 & Hp2 & L2 & _ & _ & b & -> & Hb & _ & Ht).
    assert (b = true) as -> by (destruct b; auto; destruct (proj1 Hb eq_refl) as [X _]; discriminate).
    cbn [andb Nat.eqb] in Hrun2.
    destruct (restart_ends [] m2 m' Hr2 Hp2 Hrun2) as [L R]. split; [congruence|]. intros e He.
    rewrite (R e) by congruence. rewrite (Ht eq_refl e) by congruence. rewrite (O (e_name e)), (O' e He).
    unfold running in *. rewrite S1, S0. simpl. tauto.
Qed.
End Unspawner.

(* ------------------------------------------------------------------ every script can run to its end *)
Fixpoint never_reloads (c : client) : Prop :=
  match c with
  | Done => True
  | Load _ k | Unload _ k | Switch _ _ _ k => forall a, never_reloads (k a)
  | ListAll k => forall l, never_reloads (k l)
  | Reload _ _ => False
  end.

Lemma completes others plugins asserts : (exists env, plugins env) -> forall c,
  asserts = false \/ never_reloads c -> forall m : mgr, reachable H m -> please m = false ->
  exists m', run H others plugins asserts m c m'.
Proof.
  intros (env & Henv). induction c as [|n k IH|n k IH|st sp s k IH|k IH|force k IH]; intros Hc m Hr Hp.
  - exists m. constructor.
  - pose proof (inv_of H HP m Hr) as I. destruct (load_spec H env n m I Hp) as (a & m1 & E & _).
    destruct (call_load H HP env n m a m1 Hr Hp E) as (Hr1 & Hp1 & _).
    destruct (IH a) with (m := m1) as (m' & X); auto; [destruct Hc as [Hc|Hc]; auto|]. exists m'. eapply run_load; eauto.
  - pose proof (inv_of H HP m Hr) as I. destruct (unload_spec n m I Hp) as (b & m1 & E & _).
    destruct (call_unload H HP n m _ m1 Hr Hp E) as (Hr1 & Hp1 & _).
    destruct (IH (Returned b)) with (m := m1) as (m' & X); auto; [destruct Hc as [Hc|Hc]; auto|]. exists m'. eapply run_unload; eauto.
  - assert (Y : exists a m1, switchController H st sp s true true m = Ok (a, m1)).
    { pose proof (inv_of H HP m Hr) as I. unfold switchController.
      destruct (switch_request_spec st sp s m I Hp) as [(_ & _ & m1 & E & _)|(_ & m1 & E & I1 & _)]; rewrite E; eauto.
      destruct (update_spec H true true m1 I1 (proj1 HP) (proj2 HP)) as (m2 & _ & _ & Eu & _). rewrite Eu. cbn [bind]. eauto. }
    destruct Y as (a & m1 & E). destruct (call_switch H HP _ _ _ _ _ m a m1 Hr Hp E) as (Hr1 & Hp1 & _).
    destruct (IH a) with (m := m1) as (m' & X); auto; [destruct Hc as [Hc|Hc]; auto|]. exists m'. eapply run_switch; eauto.
  - pose proof (list_spec asserts m (inv_of H HP m Hr)) as E.
    destruct (IH (map (fun e => (e_name e, runningb m (e_ptr e))) (order m))) with (m := m) as (m' & X); auto;
      [destruct Hc as [Hc|Hc]; auto|]. exists m'. eapply run_list; eauto.
  - destruct Hc as [->|[]].
    assert (Y : exists ok m1, reloadControllerLibraries H false force true true m = Ok (ok, m1) /\ reachable H m1 /\ please m1 = false).
    { destruct (loaded m) as [|e0 l0] eqn:El.
      - exists true, (log EvNewLoader m). split; [|split; auto; eapply reach_step; [exact Hr|apply step_newloader; auto]].
        unfold reloadControllerLibraries, getControllerNames. change (lists m (cur m)) with (loaded m). rewrite El. reflexivity.
      - destruct force.
        + destruct (C65_forced_reload_outcome false true true m Hr Hp) as (m1 & gone & Hr1 & Hp1 & Hg & Hd & Hn & _ & X & Y); [congruence|].
          destruct (reloadControllerLibraries H false true true true m) as [[ok m2]| | |] eqn:E.
          { exists ok, m2. split; auto. destruct (forced_reload_step false true true m m2 ok Hr Hp E) as (A & B & _). auto. }
          all: exfalso; destruct (deps_dec m (loaded m)) as [Z1|Z1]; [specialize (X Z1); discriminate|destruct (Y Z1) as [_ Z2]; discriminate].
        + exists false, m. split; auto. apply C20_not_forced_untouched; auto. congruence. }
    destruct Y as (ok & m1 & E & Hr1 & Hp1). destruct (IH ok) with (m := m1) as (m' & X); auto. exists m'. eapply run_reload; eauto.
Qed.

Lemma unload_each_never l : never_reloads (unload_each l).
Proof. induction l as [|n l IH]; simpl; auto. intros [b|]; simpl; auto. Qed.
Lemma shutdown_never l : never_reloads (shutdown l).
Proof. simpl. intros [b|]; simpl; auto using unload_each_never. Qed.
Lemma spawner_never autostart : forall todo kill mine, never_reloads (spawner_load autostart kill todo mine).
Proof.
  induction todo as [|n todo IH]; intros kill mine.
  - assert (X : never_reloads (spawner_started autostart mine)).
    { unfold spawner_started. destruct autostart; [intros ?|]; apply shutdown_never. }
    destruct kill as [[|]|]; cbn [spawner_load]; auto using shutdown_never.
  - assert (X : forall kill', never_reloads (Load n (fun a =>
            match a with
            | Returned true => spawner_load autostart kill' todo (mine ++ [n])
            | Returned false => spawner_load autostart kill' todo mine
            | Exception => shutdown mine
            end))).
    { intros kill' [[|]|]; auto. apply shutdown_never. }
    destruct kill as [[|]|]; [apply shutdown_never|exact (X _)|exact (X _)].
Qed.

(** Killed whenever, the spawner always runs to its end. *)
Theorem C64_spawner_completes : forall others plugins asserts autostart kill ns (m : mgr),
  (exists env, plugins env) -> reachable H m -> please m = false ->
  exists m', run H others plugins asserts m (spawner autostart kill ns) m'.
Proof. intros. apply completes; auto. right. apply spawner_never. Qed.

(** Without assertions reload-libraries always runs to its end (with them it may abort the manager, see
    C65_forced_reload_outcome). *)
Theorem C65_reload_completes : forall others plugins force restore (m : mgr),
  (exists env, plugins env) -> reachable H m -> please m = false ->
  exists m', run H others plugins false m (reload_libraries force restore) m'.
Proof. intros. apply completes; auto. Qed.
End Theorems.

(* ------------------------------------------------------------------ non-vacuity *)
(** an interpreter: the client alone, plugins from [env], both publishers free *)
Fixpoint play {W} (H : hooks W) (env : plugin_env) (asserts : bool) (c : client) (m : mgr W) : option (mgr W) :=
  if please m then None else
  match c with
  | Done => Some m
  | Load n k => match loadController H env n m with Ok (a, m1) => play H env asserts (k a) m1 | _ => None end
  | Unload n k => match unloadController n m with Ok (a, m1) => play H env asserts (k a) m1 | _ => None end
  | Switch st sp s k => match switchController H st sp s true true m with Ok (a, m1) => play H env asserts (k a) m1 | _ => None end
  | ListAll k => match listControllers asserts m with Ok l => play H env asserts (k l) m | _ => None end
  | Reload f k => match reloadControllerLibraries H asserts f true true m with Ok (a, m1) => play H env asserts (k a) m1 | _ => None end
  end.
Lemma play_run {W} (H : hooks W) env asserts others c : forall m m', play H env asserts c m = Some m' ->
  run H others (eq env) asserts m c m'.
Proof.
  induction c as [|n k IH|n k IH|st sp s k IH|k IH|force k IH]; intros m m' E; cbn [play] in E; destruct (please m) eqn:Ep; try discriminate.
  - injection E as <-. constructor.
  - destruct (loadController H env n m) as [[a m1]| | |] eqn:E1; try discriminate. eapply run_load; eauto.
  - destruct (unloadController n m) as [[a m1]| | |] eqn:E1; try discriminate. eapply run_unload; eauto.
  - destruct (switchController H st sp s true true m) as [[a m1]| | |] eqn:E1; try discriminate. eapply run_switch; eauto.
  - destruct (listControllers asserts m) as [l| | |] eqn:E1; try discriminate. eapply run_list; eauto.
  - destruct (reloadControllerLibraries H asserts force true true m) as [[a m1]| | |] eqn:E1; try discriminate. eapply run_reload; eauto.
Qed.

(** names and running flags of the loaded controllers *)
Definition shown {W} (m : option (mgr W)) : option (list (string * bool)) :=
  option_map (fun m => map (fun e => (e_name e, runningb m (e_ptr e))) (loaded m)) m.
Definition ran {W} (m : option (mgr W)) : nat :=
  match m with Some m => List.length (filter (fun e => match e with EvCb _ CbStarting => true | _ => false end) (trace m)) | None => 0 end.

(** a spawner for a and b (b depends on a) on an empty manager starts two controllers and leaves none *)
Example C64_ex : let m := play exH exEnv true (spawner true None ["a"; "nobody"; "b"]) ex0 in
  shown m = Some [] /\ ran m = 2 /\ no_outside_dependents ["a"; "nobody"; "b"] ex0.
Proof. split; [vm_compute; reflexivity|]. split; [vm_compute; reflexivity|]. intros e d []. Qed.
(** interrupted while "b", which uses "a", is being loaded: both are left behind *)
Example C64_ex_interrupted : shown (play exH exEnv true (spawner_lost 1 ["a"; "b"; "d"] []) ex0) = Some [("a", false); ("b", false)] /\
  nth_error ["a"; "b"; "d"] 1 = Some "b" /\ ~ In "b" (firstn 1 ["a"; "b"; "d"]).
Proof. split; [vm_compute; reflexivity|]. split; [reflexivity|]. cbn. intuition discriminate. Qed.
(** its controller "d" was unloaded by somebody else: a and b stay loaded and running *)
Example C64_ex_refused : shown (play exH exEnv true (shutdown ["a"; "b"; "d"]) ex1) = Some [("a", true); ("b", true); ("c", false)].
Proof. vm_compute. reflexivity. Qed.

(** ex1: a and b are running; b and c depend on a. The reload fails, the restore brings everything back. *)
Example C65_ex : shown (play exH exEnv true (reload_libraries true true) ex1) = Some [("a", true); ("b", true); ("c", false)] /\
  shown (play exH exEnv true (reload_libraries true false) ex1) = Some [("a", false); ("b", false); ("c", false)].
Proof. split; vm_compute; reflexivity. Qed.
(** only a and d: the reload succeeds (without assertions), the restore loads them again in
    execution order (a before d) and starts a *)
Definition ex2 : mgr exW :=
  match exec exH [OpLoad exEnv "d"; OpLoad exEnv "a"; OpSwitch ["a"] [] STRICT; OpUpdate true true] ex0 with Some m => m | None => ex0 end.
Lemma ex2_reachable : reachable exH ex2 /\ please ex2 = false.
Proof.
  split; [|vm_compute; reflexivity].
  apply exec_reachable with [OpLoad exEnv "d"; OpLoad exEnv "a"; OpSwitch ["a"] [] STRICT; OpUpdate true true] ex0.
  - apply reach_init. repeat split.
  - unfold ex2.
    assert (X : match exec exH [OpLoad exEnv "d"; OpLoad exEnv "a"; OpSwitch ["a"] [] STRICT; OpUpdate true true] ex0 with Some _ => true | None => false end = true)
      by (vm_compute; reflexivity).
    destruct (exec exH _ ex0); [reflexivity|discriminate].
Qed.
Example C65_ex_succeeds : shown (play exH exEnv false (reload_libraries true true) ex2) = Some [("a", true); ("d", false)] /\
  shown (Some ex2) = Some [("d", false); ("a", true)] /\ stands_alone exEnv "a" /\ stands_alone exEnv "d" /\
  reloadControllerLibraries exH true true true true ex2 = Abort.
Proof.
  split; [vm_compute; reflexivity|]. split; [vm_compute; reflexivity|].
  split; [split; [reflexivity|]; eexists _, _; split; [apply creates_iff; reflexivity|intros; reflexivity]|].
  split; [split; [reflexivity|]; eexists _, _; split; [apply creates_iff; reflexivity|intros; reflexivity]|].
  assert (X : match reloadControllerLibraries exH true true true true ex2 with Abort => true | _ => false end = true) by (vm_compute; reflexivity).
  destruct (reloadControllerLibraries exH true true true true ex2); try discriminate. reflexivity.
Qed.

Example C69_ex : shown (play exH exEnv true (cmd_kill ["b"; "c"; "a"]) ex1) = Some [] /\
  shown (play exH exEnv true (cmd_kill ["a"; "b"]) ex1) = Some [("a", false); ("c", false)] /\
  shown (play exH exEnv true (cmd_spawn ["d"; "c"; "x"]) ex1) = Some [("a", true); ("b", true); ("c", true); ("d", true)].
Proof. repeat split; vm_compute; reflexivity. Qed.
Example C70_ex : shown (play exH exEnv true (unspawner (fun l => l) ["b"; "c"] false 3) ex1) = Some [("a", true); ("b", true); ("c", false)] /\
  shown (play exH exEnv true (unspawner (fun l => l) ["b"; "c"] true 1) ex1) = Some [("a", true); ("b", false); ("c", false)].
Proof. split; vm_compute; reflexivity. Qed.
