(** C09-C15, C17-C20: the controller manager's services and its control cycle. *)
From Coq Require Import List String Arith Bool ZArith Lia Sorting.Permutation.
From Verif.Model Require Import Base Scheduler Controller Manager.
From Verif.Spec Require Import SchedulerSpec ManagerSpec.
From Verif.Proofs Require Import SchedulerProofs ManagerProofs ManagerInv ManagerOps.
From Verif.Props Require Import SchedulerProps.
Import ListNotations.
Open Scope string_scope.
Open Scope list_scope.

(** The hypotheses common to all theorems: any robot/clock/controllers [H] with positive publishing
    periods, and any state reached by any history of operations. *)
Definition positive_periods {W} (H : hooks W) : Prop := (0 < h_per_mech H)%Z /\ (0 < h_per_js H)%Z.

(* ------------------------------------------------------------------ a concrete system *)
(** The world is a clock (ns) that advances 0.2 ms at every reading and a motor-halted flag.
    "A" gets nothing; "B" needs "a" before it; "C" needs "a" after it; "Bad" refuses to initialise. *)
Definition exW := (Z * bool)%type.
Definition exH : hooks exW :=
  mkHooks exW (fun w => (fst w, (fst w + 200000, snd w)%Z)) (fun w => w) (fun w => w) snd (fun w => w) (fun w => w)
    (fun _ _ w => w) (fun _ w => w) (fun _ w => w) 1000000000%Z 10000000%Z.
Definition exEnv : plugin_env :=
  mkEnv (fun n => negb (String.eqb n "bad name!"))
        (fun n => match n with
                  | "a" | "d" => Some "A" | "b" => Some "pkg/B" | "c" => Some "C"
                  | "x" => Some "Bad" | "y" => Some "Broken" | "t" => Some "Throws" | _ => None end)
        (fun t => negb (String.eqb t "pkg/B")) ["pkg2/B"] (fun _ => "pkg/B")
        (fun t => match t with
                  | "A" => CreateOk (IRet true)
                  | "pkg2/B" => CreateOk (IGet "a" BEFORE_ME (fun _ => true) (fun b _ => IRet b))
                  | "C" => CreateOk (IGet "a" AFTER_ME (fun _ => true) (fun b _ => IRet b))
                  | "Bad" => CreateOk (IRet false)
                  | "Throws" => CreateOk IThrow
                  | _ => CreateRuntimeError end).
Definition ex0 : mgr exW :=
  mkMgr (fun _ => mkObj "" CONSTRUCTED no_deps new_stats) 0 (fun _ => []) (fun _ => []) false None [] [] false true
    [] 0%Z 0%Z (5%Z, false) [].

Lemma exH_periods : positive_periods exH.
Proof. split; reflexivity. Qed.

Fixpoint exec {W} (H : hooks W) (os : list op) (m : mgr W) : option (mgr W) :=
  match os with
  | [] => Some m
  | o :: os' =>
      let r := match o with
        | OpLoad env n => if please m then UB else loadController H env n m
        | OpUnload n => if please m then UB else unloadController n m
        | OpSwitch a b s => if please m then UB else
             match switch_body a b s m with
             | Rejected m' => Ok (Returned false, m')
             | Ready m' => Ok (Returned true, m')
             | Thrown m' => Ok (Exception, m')
             | Broken => UB end
        | OpUpdate l1 l2 => do m' <- update H l1 l2 m; Ok (Returned true, m')
        | OpEnv f => Ok (Returned true, on_world f m)
        | OpNewLoader => if please m then UB else
             match lists m (cur m) with [] => Ok (Returned true, log EvNewLoader m) | _ => UB end
        end in
      match r with Ok (_, m') => exec H os' m' | _ => None end
  end.

Lemma exec_reachable {W} (H : hooks W) os : forall m m', reachable H m -> exec H os m = Some m' -> reachable H m'.
Proof.
  induction os as [|o os IH]; intros m m' Hr E; simpl in E; [congruence|].
  destruct o as [env n|n|a b s|l1 l2|f|].
  - destruct (please m) eqn:Ep; [discriminate|].
    destruct (loadController H env n m) as [[a m1]| | |] eqn:E1; try discriminate.
    eapply IH; [|exact E]. eapply reach_step; [exact Hr|]. rewrite <- E1. now constructor.
  - destruct (please m) eqn:Ep; [discriminate|].
    destruct (unloadController n m) as [[a m1]| | |] eqn:E1; try discriminate.
    eapply IH; [|exact E]. eapply reach_step; [exact Hr|]. rewrite <- E1. now constructor.
  - destruct (please m) eqn:Ep; [discriminate|].
    pose proof (step_switch H m a b s Ep) as Hs.
    destruct (switch_body a b s m) as [m1|m1|m1|]; try discriminate;
      (eapply IH; [|exact E]; eapply reach_step; [exact Hr|exact Hs]).
  - pose proof (step_update H m l1 l2) as Hs.
    destruct (update H l1 l2 m) as [m1| | |]; try discriminate.
    simpl in *. eapply IH; [|exact E]. eapply reach_step; [exact Hr|exact Hs].
  - eapply IH; [|exact E]. eapply reach_step; [exact Hr|constructor].
  - destruct (please m) eqn:Ep; [discriminate|]. destruct (lists m (cur m)) eqn:El; [|discriminate].
    eapply IH; [|exact E]. eapply reach_step; [exact Hr|now constructor].
Qed.

(** load a, b (after a), c (before a), try the bad ones, run a cycle, start a and b, run two cycles *)
Definition ex_ops : list (op (W:=exW)) :=
  [OpLoad exEnv "a"; OpUpdate true true; OpLoad exEnv "b"; OpLoad exEnv "x"; OpLoad exEnv "y"; OpLoad exEnv "t";
   OpLoad exEnv "a"; OpLoad exEnv "c"; OpUpdate true true; OpSwitch ["b"; "a"] [] STRICT; OpUpdate true false].
Definition ex1 : mgr exW := match exec exH ex_ops ex0 with Some m => m | None => ex0 end.

Lemma ex1_reachable : reachable exH ex1.
Proof.
  apply exec_reachable with ex_ops ex0.
  - apply reach_init. repeat split.
  - unfold ex1. assert (X : match exec exH ex_ops ex0 with Some _ => true | None => false end = true)
      by (vm_compute; reflexivity).
    destruct (exec exH ex_ops ex0); [reflexivity|discriminate].
Qed.

Example ex1_is : loaded ex1 = [mkEntry "a" 0; mkEntry "b" 1; mkEntry "c" 4] /\
  exec_order ex1 = [4; 0; 1] /\ map (runningb ex1) [0; 1; 4] = [true; true; false] /\ please ex1 = false.
Proof. vm_compute. auto. Qed.

Lemma flat_map_filter {A B} (f : A -> bool) (g : A -> list B) l :
  flat_map (fun p => if f p then g p else []) l = flat_map g (filter f l).
Proof. induction l as [|x l IH]; simpl; auto. rewrite IH. destruct (f x); reflexivity. Qed.
Lemma flat_map_single {A B} (g : A -> B) l : flat_map (fun p => [g p]) l = map g l.
Proof. induction l as [|x l IH]; simpl; congruence. Qed.

(* ------------------------------------------------------------------ C09, C10 *)
Section Theorems.
Context {W : Type} (H : hooks W) (HP : positive_periods H).
Notation mgr := (mgr W).

Lemma inv_of (m : mgr) : reachable H m -> Inv m.
Proof. apply reachable_inv; apply HP. Qed.

(** C09: whatever the parameter server, plugin library and controller code do. *)
Theorem C09_load_all_or_nothing :
  forall env name (m : mgr), reachable H m -> please m = false ->
  exists ans m', loadController H env name m = Ok (ans, m') /\ reachable H m' /\
    ((ans = Returned true /\
      exists p, loaded m' = loaded m ++ [mkEntry name p] /\ ~ In p (map e_ptr (loaded m)) /\
        runningb m' p = false /\
        (forall e, In e (loaded m) -> heap m' (e_ptr e) = heap m (e_ptr e)) /\
        map cs_name (mstats m') = loaded_names m ++ [name])
     \/ (ans <> Returned true /\ same_controllers m m')).
Proof.
  intros env name m Hr Hp. pose proof (inv_of m Hr) as I.
  destruct (load_spec H env name m I Hp) as (a & m' & E & I' & Hp' & Hs).
  exists a, m'. split; auto. split.
  { eapply reach_step; [exact Hr|]. rewrite <- E. now constructor. }
  destruct a as [[|]|].
  - left. split; auto. destruct Hs as (Hn & Hl & Hh & Hst & _). exists (next m).
    split; [exact Hl|]. split.
    { intros Hin. apply in_map_iff in Hin. destruct Hin as (e & He & Hin). pose proof (inv_lt m I e Hin). lia. }
    split; [unfold runningb; unfold state_of in Hst; now rewrite Hst|]. split; [exact Hh|].
    rewrite (inv_stats m' I'), Hl, map_app. reflexivity.
  - right. split; [discriminate|tauto].
  - right. split; [discriminate|tauto].
Qed.

(** When it succeeds: exactly if the name is free and valid, the type is configured and constructible,
    init returns true, and the ordering requests are satisfiable together with those of the loaded ones. *)
(** which class is created, and whether it is *)
Lemma first_short env ty : match find (fun c => String.eqb ty (pe_short env c)) (pe_declared env) with
  | Some c => exists pre post, pe_declared env = pre ++ c :: post /\ pe_short env c = ty /\ (forall d, In d pre -> pe_short env d <> ty)
  | None => forall d, In d (pe_declared env) -> pe_short env d <> ty end.
Proof.
  induction (pe_declared env) as [|x l IH]; cbn [find]; [intros d []|].
  destruct (String.eqb_spec ty (pe_short env x)) as [->|N].
  - exists [], l. repeat split; auto; try (intros d []).
  - destruct (find _ l) as [c|].
    + destruct IH as (pre & post & -> & E & A). exists (x :: pre), post. repeat split; auto.
      intros d [<-|I]; [congruence|auto].
    + intros d [<-|I]; [congruence|auto].
Qed.
Lemma class_for_iff env ty c : class_for env ty c <-> resolve_type env ty = c.
Proof.
  unfold resolve_type. pose proof (first_short env ty) as F. split.
  - intros [A|pre x post A E S N|A N]; rewrite A; auto; destruct (find _ _) as [y|]; auto.
    + destruct F as (pre' & post' & E' & S' & N'). rewrite E in E'. clear A E. revert pre' E' N'.
      induction pre as [|a pre IH]; intros [|b pre'] E N'; cbn in E; injection E as -> E; auto.
      * exfalso. apply (N' b); [left; auto|auto].
      * exfalso. apply (N y); [left; auto|auto].
      * apply (IH (fun d I => N d (or_intror I)) pre' E (fun d I => N' d (or_intror I))).
    + exfalso. apply (F x); [rewrite E; apply in_elt|auto].
    + destruct F as (pre' & post' & E' & S' & N'). exfalso. apply (N y); [rewrite E'; apply in_elt|auto].
  - destruct (pe_available env ty) eqn:A; [intros <-; constructor; auto|].
    destruct (find _ _) as [y|]; intros <-.
    + destruct F as (pre & post & E & S & N). econstructor 2; eauto.
    + constructor 3; auto.
Qed.
Lemma creates_iff env name c pr : creates env name c pr <-> construct env name = Some (Some (c, pr)).
Proof.
  unfold creates, construct. split.
  - intros (ty & -> & C & E). apply class_for_iff in C. rewrite C, E. reflexivity.
  - destruct (pe_type env name) as [ty|]; [|discriminate]. destruct (pe_create env (resolve_type env ty)) eqn:E; try discriminate.
    intros [= <- <-]. exists ty. split; auto. split; auto. apply class_for_iff. auto.
Qed.

Lemma load_succeeds_iff :
  forall env name (m : mgr), reachable H m -> please m = false ->
  ((exists m', loadController H env name m = Ok (Returned true, m')) <->
   (~ In name (loaded_names m) /\ pe_node_ok env name = true /\
    exists ty pr d, construct env name = Some (Some (ty, pr)) /\
      run_init (Some (as_provider m)) pr no_deps = (InitRet true, d) /\
      exists o, admissible (specs (heap m) (loaded m) ++ [mkSpec name (d_before d) (d_after d)]) o)).
Proof.
  intros env name m Hr Hp. pose proof (inv_of m Hr) as I.
  set (new d := mkSpec name (d_before d) (d_after d)).
  (* the specs seen by the scheduler *)
  assert (Hsp : forall p ty d st, p = next m ->
     specs (upd_heap (heap m) p (mkObj ty st d new_stats)) (loaded m ++ [mkEntry name p]) =
     specs (heap m) (loaded m) ++ [new d]).
  { intros p ty d st ->. unfold specs. rewrite map_app. simpl. f_equal.
    - apply map_ext_in. intros e He. unfold spec_of, upd_heap.
      pose proof (inv_lt m I e He). destruct (Nat.eqb_spec (e_ptr e) (next m)); [lia|reflexivity].
    - unfold spec_of, upd_heap. simpl. rewrite Nat.eqb_refl. reflexivity. }
  assert (Hnd : ~ In name (loaded_names m) -> forall d, NoDup (names (specs (heap m) (loaded m) ++ [new d]))).
  { intros Hn d. unfold names. rewrite map_app. simpl. apply NoDup_snoc; fold (names (specs (heap m) (loaded m)));
      rewrite names_specs; [apply I|exact Hn]. }
  unfold loadController, load_body. fold (loaded m).
  destruct (existsb (fun e => String.eqb (e_name e) name) (loaded m)) eqn:Hdup.
  { split; [intros (m' & E); discriminate|]. intros (Hn & _). exfalso. apply Hn. now apply existsb_name. }
  assert (Hn : ~ In name (loaded_names m)).
  { intros Hin. apply existsb_name in Hin. congruence. }
  destruct (pe_node_ok env name); simpl;
    [|split; [intros (m' & E); discriminate|intros (_ & E & _); discriminate]].
  destruct (construct env name) as [[[ty pr]|]|] eqn:Hc.
  2,3: (split; [intros (m' & E); discriminate|intros (_ & _ & ty & pr & d & E & _); discriminate]).
  set (m1 := set_lists _ m).
  assert (Hprov : as_provider m1 = as_provider m).
  { unfold as_provider, getControllerByName, m1. simpl. unfold free_list. rewrite upd_negb. reflexivity. }
  rewrite Hprov.
  destruct (run_init (Some (as_provider m)) pr no_deps) as [[[|]|] d] eqn:Hrun.
  2,3: (cbv zeta; split; [intros (m' & E); discriminate|
        intros (_ & _ & ty' & pr' & d' & E & E2 & _); inversion E; subst; congruence]).
  cbv zeta.
  set (m2 := calls H _ _ _).
  destruct (calls_spec H (next m) [CbInit true] (set_next (S (next m)) (set_heap (upd_heap (heap m) (next m) (mkObj ty INITIALIZED d new_stats)) m1)))
      as (E1&_&_&E4&_).
  fold m2 in E1, E4. simpl in E1, E4. change (m2) with m2 in *.
  assert (Hheap : heap m2 = upd_heap (heap m) (next m) (mkObj ty INITIALIZED d new_stats)) by exact E1.
  clearbody m2. rewrite Hheap, (Hsp (next m) ty d INITIALIZED eq_refl).
  assert (Hrefs : after_refs_loaded (specs (heap m) (loaded m) ++ [new d])).
  { intros c1 s c2 a E Ha. apply app_cons_snoc in E. destruct E as [(-> & -> & ->)|(c2' & E & ->)].
    - simpl in Ha. unfold names. rewrite map_app. apply in_or_app. left.
      fold (names (specs (heap m) (loaded m))). rewrite names_specs.
      assert (Hg : In a (map fst (d_got d))).
      { apply (run_init_deps _ _ _ _ _ Hrun); [simpl; tauto|]. apply in_or_app. now right. }
      apply in_map_iff in Hg. destruct Hg as ([a' q] & Ea & Hg). simpl in Ea. subst a'.
      destruct (run_init_got _ _ _ _ _ Hrun a q Hg) as [[]|(f & ty' & Ef & Efa)].
      inversion Ef; subst f. apply as_provider_in in Efa. apply (in_map e_name) in Efa. exact Efa.
    - destruct (inv_sched m I) as (old & Es).
      pose proof (schedule_correct (specs (heap m) (loaded m)) old) as Hsc.
      rewrite names_specs in Hsc. specialize (Hsc (inv_names m I)). rewrite Es in Hsc.
      destruct Hsc as (_ & _ & o & _ & _ & _ & _ & Hall). apply (Hall c1 s c2' a E Ha). }
  pose proof (schedule_correct (specs (heap m) (loaded m) ++ [new d]) (scheds m2 (free_list m)) (Hnd Hn d)) as Hsc.
  destruct (scheduleControllers _ _) as [s|s| |]; try tauto.
  - split; [|intros _; eexists; reflexivity]. intros _. split; auto. split; auto.
    exists ty, pr, d. split; auto. split; auto. destruct Hsc as (_ & _ & o & _ & _ & _ & Hadm & _). eauto.
  - split; [intros (m' & E); discriminate|]. intros (_ & _ & ty' & pr' & d' & E & E2 & Ho).
    inversion E; subst. rewrite Hrun in E2. inversion E2; subst. exfalso. apply Hsc. split; auto.
Qed.

Theorem C09_load_succeeds_iff :
  forall env name (m : mgr), reachable H m -> please m = false ->
  ((exists m', loadController H env name m = Ok (Returned true, m')) <->
   (~ In name (loaded_names m) /\ pe_node_ok env name = true /\
    exists ty pr d, creates env name ty pr /\
      run_init (Some (as_provider m)) pr no_deps = (InitRet true, d) /\
      exists o, admissible (specs (heap m) (loaded m) ++ [mkSpec name (d_before d) (d_after d)]) o)).
Proof.
  intros env name m Hr Hp. rewrite (load_succeeds_iff env name m Hr Hp). split.
  - intros (A & B & ty & pr & d & C & D). split; auto. split; auto. exists ty, pr, d. rewrite creates_iff. auto.
  - intros (A & B & ty & pr & d & C & D). split; auto. split; auto. exists ty, pr, d. rewrite creates_iff in C. auto.
Qed.

(** the only load request answered by an exception is one whose class throws something other than a runtime error when it is
    instantiated: missing names, types or classes, a failing constructor and a failing or throwing init are all answered false *)
Theorem C09_load_throws_iff :
  forall env name (m : mgr), reachable H m -> please m = false ->
  ((exists m', loadController H env name m = Ok (Exception, m')) <->
   (~ In name (loaded_names m) /\ pe_node_ok env name = true /\
    exists ty c, pe_type env name = Some ty /\ class_for env ty c /\ pe_create env c = CreateOtherException)).
Proof.
  intros env name m Hr Hp. pose proof (inv_of m Hr) as I.
  assert (Hc : (exists ty c, pe_type env name = Some ty /\ class_for env ty c /\ pe_create env c = CreateOtherException) <->
               construct env name = None).
  { unfold construct. split.
    - intros (ty & c & -> & C & E). apply class_for_iff in C. rewrite C, E. reflexivity.
    - destruct (pe_type env name) as [ty|]; [|discriminate]. destruct (pe_create env (resolve_type env ty)) eqn:E; try discriminate.
      intros _. exists ty, (resolve_type env ty). split; auto. split; auto. now apply class_for_iff. }
  rewrite Hc. clear Hc. destruct (load_spec H env name m I Hp) as (a & m' & E & _).
  unfold loadController, load_body in *. fold (loaded m) in *.
  destruct (existsb (fun e => String.eqb (e_name e) name) (loaded m)) eqn:Hdup.
  { split; [intros (? & X); discriminate|]. intros (Hn & _). exfalso. apply Hn. now apply existsb_name. }
  assert (Hn : ~ In name (loaded_names m)).
  { intros Hin. apply existsb_name in Hin. congruence. }
  destruct (pe_node_ok env name); simpl in *;
    [|split; [intros (? & X); discriminate|intros (_ & X & _); discriminate]].
  destruct (construct env name) as [[[ty pr]|]|] eqn:Hc.
  - split; [|intros (_ & _ & X); discriminate]. intros (m2 & X). exfalso. revert X.
    destruct (run_init _ pr no_deps) as [[[|]|] d]; cbv zeta; try discriminate.
    destruct (scheduleControllers _ _); discriminate.
  - split; [intros (? & X); discriminate|intros (_ & _ & X); discriminate].
  - split; auto. intros _. eexists. reflexivity.
Qed.

(** the object added is an instance of the class found, with the dependencies its initialisation asked for *)
Theorem C09_object_created :
  forall env name (m m' : mgr), reachable H m -> please m = false -> loadController H env name m = Ok (Returned true, m') ->
  exists c pr d p, creates env name c pr /\ run_init (Some (as_provider m)) pr no_deps = (InitRet true, d) /\
    loaded m' = loaded m ++ [mkEntry name p] /\
    co_type (heap m' p) = c /\ co_state (heap m' p) = INITIALIZED /\ co_deps (heap m' p) = d.
Proof.
  intros env name m m' Hr Hp E. pose proof (inv_of m Hr) as I.
  destruct (load_spec H env name m I Hp) as (a & m2 & E2 & I' & Hp' & Hs). rewrite E in E2. injection E2 as <- <-.
  destruct Hs as (Hn & Hl & Hh & Hst & _ & _ & ty & pr & d & Hc & Hi & Ho).
  exists ty, pr, d, (next m). rewrite creates_iff, Ho. repeat split; auto.
Qed.

(** C10 *)
Theorem C10_loaded_names_unique :
  forall m : mgr, reachable H m -> NoDup (loaded_names m).
Proof. intros m Hr. apply (inv_of m Hr). Qed.

Theorem C10_duplicate_load_rejected :
  forall env name (m : mgr), reachable H m -> please m = false -> In name (loaded_names m) ->
  exists m', loadController H env name m = Ok (Returned false, m') /\ same_controllers m m' /\ trace m' = trace m.
Proof.
  intros env name m Hr Hp Hin. pose proof (inv_of m Hr) as I.
  destruct (load_spec H env name m I Hp) as (a & m' & E & _ & _ & Hs).
  pose proof E as E0. unfold loadController, load_body in E0. fold (loaded m) in E0.
  apply existsb_name in Hin. rewrite Hin in E0. inversion E0; subst a. exists m'.
  split; auto. split; [tauto|]. inversion E0. reflexivity.
Qed.

(* ------------------------------------------------------------------ C11, C12, C13 *)
Theorem C11_unload_succeeds_iff_allowed :
  forall name (m : mgr), reachable H m -> please m = false ->
  exists b m', unloadController name m = Ok (Returned b, m') /\ reachable H m' /\
    (b = true <-> (exists e, In e (loaded m) /\ e_name e = name /\ ~ running m (e_ptr e)) /\ ~ has_dependent m name) /\
    heap m' = heap m /\ trace m' = trace m /\
    (b = true -> loaded m' = filter (fun e => negb (String.eqb (e_name e) name)) (loaded m)) /\
    (b = false -> same_controllers m m').
Proof.
  intros name m Hr Hp. pose proof (inv_of m Hr) as I.
  destruct (unload_spec name m I Hp) as (b & m' & E & I' & Hp' & Ht & Hn & Hh & Hb & Hl).
  exists b, m'. split; auto. split.
  { eapply reach_step; [exact Hr|]. rewrite <- E. now constructor. }
  split; [exact Hb|]. split; auto. split; auto. split; intros ->; exact Hl.
Qed.

(** C12 *)
Theorem C12_dependencies_never_dangle :
  forall (m : mgr) e, reachable H m -> In e (loaded m) ->
  (forall n p, In (n, p) (handed_out m (e_ptr e)) -> In (mkEntry n p) (loaded m)) /\
  (forall n, In n (dep_names m (e_ptr e)) -> exists p, In (n, p) (handed_out m (e_ptr e)) /\ In (mkEntry n p) (loaded m)).
Proof.
  intros m e Hr He. pose proof (inv_of m Hr) as I.
  assert (A : forall n p, In (n, p) (handed_out m (e_ptr e)) -> In (mkEntry n p) (loaded m)).
  { intros n p Hp. destruct (in_split _ _ He) as (l1 & l2 & E).
    rewrite E. apply in_or_app. left. eapply (inv_deps m I); eauto. }
  split; auto. intros n Hn. apply (inv_got m I e n He) in Hn. apply in_map_iff in Hn.
  destruct Hn as ([n' p] & <- & Hp). exists p. auto.
Qed.

(** The pointers handed out to a controller never change while it stays loaded, whatever operation is run. *)
Theorem C12_handed_out_pointers_stable :
  forall (m : mgr) o a m' e, reachable H m -> step H m o (Ok (a, m')) -> In e (loaded m) -> In e (loaded m') ->
  handed_out m' (e_ptr e) = handed_out m (e_ptr e).
Proof.
  intros m o a m' e Hr Hs He _. pose proof (inv_of m Hr) as I. destruct HP as [Hp1 Hp2].
  inversion Hs as [? env name Hpl E0|? name Hpl E0|? start stop strictness Hpl E0|? l1 l2 E0|? f|? Hpl E0]; subst.
  - destruct (load_spec H env name m I Hpl) as (a' & m'' & E & _ & _ & X).
    rewrite E in *. match goal with H : Ok _ = Ok _ |- _ => inversion H; subst end.
    unfold handed_out. destruct a as [[|]|].
    + destruct X as (_ & _ & X & _). now rewrite X.
    + destruct X as ((_ & _ & X & _) & _). now rewrite X.
    + destruct X as ((_ & _ & X & _) & _). now rewrite X.
  - destruct (unload_spec name m I Hpl) as (b & m'' & E & _ & _ & _ & _ & X & _).
    rewrite E in *. match goal with H : Ok _ = Ok _ |- _ => inversion H; subst end.
    unfold handed_out. now rewrite X.
  - destruct (switch_request_spec start stop strictness m I Hpl)
        as [(_ & _ & m'' & E & _ & X)|(_ & m'' & E & _ & X)]; rewrite E in *;
      match goal with H : Ok _ = Ok _ |- _ => inversion H; subst end;
      unfold handed_out; [replace (heap m') with (heap m) by (symmetry; tauto)|replace (heap m') with (heap m) by (symmetry; tauto)]; reflexivity.
  - destruct (update_spec H l1 l2 m I Hp1 Hp2) as (m'' & p1 & p2 & E & _ & X).
    rewrite E in *. cbn [bind] in *. match goal with H : Ok _ = Ok _ |- _ => inversion H; subst end.
    destruct X as (_&_&_&_&_&_&_&_&_&_&_&_&X). unfold handed_out. destruct (X (e_ptr e)) as [_ ->]. reflexivity.
  - reflexivity.
  - reflexivity.
Qed.

(** C13: removing any set of controllers nobody else refers to from a schedulable list leaves it schedulable. *)
Theorem C13_removal_keeps_schedulable :
  forall c n old s old',
    NoDup (names c) -> scheduleControllers c old = SchedOk s ->
    (forall x, In x c -> sp_name x <> n -> ~ In n (sp_before x) /\ ~ In n (sp_after x)) ->
    exists s', scheduleControllers (filter (fun x => negb (String.eqb (sp_name x) n)) c) old' = SchedOk s'.
Proof.
  intros c n old s old' Hnd Hs Hn. pose proof (schedule_correct c old Hnd) as Hc. rewrite Hs in Hc.
  destruct Hc as (_ & _ & o & _ & _ & _ & Hadm & Href).
  set (keep := fun x => negb (String.eqb (sp_name x) n)) in *.
  assert (Hnd' : NoDup (names (filter keep c))).
  { unfold names in *. clear -Hnd. induction c as [|x c IH]; simpl; auto. inversion Hnd; subst.
    destruct (keep x); simpl; auto. constructor; auto. intros Hin. apply H1.
    apply in_map_iff in Hin. destruct Hin as (y & <- & Hy). apply filter_In in Hy. apply in_map. tauto. }
  pose proof (schedule_correct (filter keep c) old' Hnd') as Hc'.
  destruct (scheduleControllers (filter keep c) old') as [s'|s'| |]; try tauto; eauto.
  exfalso. destruct Hc' as (_ & Hc'). apply Hc'. split.
  - assert (Hsplit : forall l l1 x l2, filter keep l = l1 ++ x :: l2 ->
        exists k1 k2, l = k1 ++ x :: k2 /\ l1 = filter keep k1).
    { induction l as [|y l IH]; intros l1 x l2 E; simpl in E; [destruct l1; discriminate|].
      destruct (keep y) eqn:Ky.
      - destruct l1 as [|z l1]; simpl in E; inversion E; subst.
        + exists [], l. auto.
        + destruct (IH l1 x l2 H2) as (k1 & k2 & -> & ->). exists (z :: k1), k2. simpl. rewrite Ky. auto.
      - destruct (IH l1 x l2 E) as (k1 & k2 & -> & ->). exists (y :: k1), k2. simpl. rewrite Ky. auto. }
    intros c1 x c2 a E Ha. assert (Hx : In x (filter keep c)) by (rewrite E; apply in_or_app; right; now left).
    destruct (Hsplit _ _ _ _ E) as (k1 & k2 & Ek & ->).
    pose proof (Href k1 x k2 a Ek Ha) as Hin. apply filter_In in Hx. destruct Hx as [Hx Hk].
    unfold keep in Hk. destruct (String.eqb_spec (sp_name x) n) as [|Hne]; [discriminate|].
    destruct (Hn x Hx Hne) as [_ Hna].
    unfold names in *. rewrite map_app in *. apply in_app_iff in Hin. apply in_or_app.
    destruct Hin as [Hin|Hin]; [left|right; exact Hin].
    apply in_map_iff in Hin. destruct Hin as (y & Ey & Hy). apply in_map_iff. exists y. split; auto.
    apply filter_In. split; auto. unfold keep. destruct (String.eqb_spec (sp_name y) n); auto. congruence.
  - eexists. apply admissible_remove with (1 := Hadm). exact Hn.
Qed.

Theorem C13_unload_never_fails_scheduling :
  forall name (m : mgr), reachable H m -> please m = false ->
    (exists e, In e (loaded m) /\ e_name e = name /\ ~ running m (e_ptr e)) -> ~ has_dependent m name ->
    exists m', unloadController name m = Ok (Returned true, m') /\ ~ In name (loaded_names m').
Proof.
  intros name m Hr Hp He Hd.
  destruct (C11_unload_succeeds_iff_allowed name m Hr Hp) as (b & m' & E & _ & Hb & _ & _ & Hl & _).
  rewrite (proj2 Hb (conj He Hd)) in *. exists m'. split; auto.
  unfold loaded_names. rewrite (Hl eq_refl). intros Hin. apply in_map_iff in Hin.
  destruct Hin as (e & En & Hin). apply filter_In in Hin. destruct Hin as [_ Hk].
  rewrite En, String.eqb_refl in Hk. discriminate.
Qed.

(* ------------------------------------------------------------------ C14, C15 *)

Lemma mgr_eta (m : mgr) : stop_req m = [] -> start_req m = [] ->
  set_stop_req [] m = m /\ set_start_req [] (set_stop_req [] m) = m.
Proof. destruct m; simpl. intros -> ->. split; reflexivity. Qed.

(** C14: the refused request leaves the manager in literally the same state - nothing is started or
    stopped, now or by a later cycle. *)
Theorem C14_strict_refused_as_a_whole :
  forall start stop l1 l2 (m : mgr), reachable H m -> please m = false ->
    (exists n, In n (start ++ stop) /\ ~ In n (loaded_names m)) ->
    switchController H start stop STRICT l1 l2 m = Ok (Returned false, m).
Proof.
  intros start stop l1 l2 m Hr Hp (n & Hn & Hnl). pose proof (inv_of m Hr) as I.
  destruct (inv_idle m I Hp) as [R1 R2].
  unfold switchController, switch_body. simpl.
  rewrite (collect_spec m true stop). simpl.
  destruct (forallb _ stop) eqn:E1; simpl.
  2:{ destruct (mgr_eta m R2 R1) as [-> _]. reflexivity. }
  rewrite (collect_spec (set_stop_req (stop_req m ++ resolve m stop) m) true start). simpl.
  change (fun n0 : string => match getControllerByName (set_stop_req (stop_req m ++ resolve m stop) m) n0 with
          | Some _ => true | None => false end) with
         (fun n0 : string => match getControllerByName m n0 with Some _ => true | None => false end).
  destruct (forallb (fun n0 : string => match getControllerByName m n0 with Some _ => true | None => false end) start) eqn:E2; simpl.
  - exfalso. apply (all_loaded_b m stop I) in E1. apply (all_loaded_b m start I) in E2.
    apply in_app_iff in Hn. destruct Hn as [Hn|Hn]; [now apply Hnl, E2|now apply Hnl, E1].
  - change (set_stop_req [] (set_stop_req (stop_req m ++ resolve m stop) m)) with (set_stop_req [] m).
    destruct (mgr_eta m R2 R1) as [_ E]. rewrite E. reflexivity.
Qed.

(** any other strictness, and a STRICT request naming only loaded controllers, is accepted, and means the
    same as the STRICT request for the known names *)
Definition known (m : mgr) (ns : list string) : list string :=
  filter (fun n => if in_dec string_dec n (loaded_names m) then true else false) ns.

Lemma resolve_known (m : mgr) ns : Inv m -> resolve m (known m ns) = resolve m ns.
Proof.
  intros I. unfold resolve, known. induction ns as [|n ns IH]; simpl; auto.
  destruct (in_dec string_dec n (loaded_names m)) as [Hi|Hi]; simpl.
  - now rewrite IH.
  - rewrite IH. pose proof (lookup_spec m n I) as Hl. destruct (getControllerByName m n); auto.
    exfalso. apply Hi. apply (in_map e_name) in Hl. exact Hl.
Qed.

Theorem C14_best_effort_ignores_exactly_unknown :
  forall start stop strictness l1 l2 (m : mgr), reachable H m -> please m = false -> strictness <> STRICT ->
    (exists m', switchController H start stop strictness l1 l2 m = Ok (Returned true, m')) /\
    switchController H start stop strictness l1 l2 m =
    switchController H (known m start) (known m stop) STRICT l1 l2 m.
Proof.
  intros start stop strictness l1 l2 m Hr Hp Hs. pose proof (inv_of m Hr) as I.
  destruct HP as [Hp1 Hp2]. destruct (inv_idle m I Hp) as [R1 R2].
  assert (Hkl : forall ns, all_loaded m (known m ns)).
  { intros ns n Hn. apply filter_In in Hn. destruct Hn as [_ Hn].
    destruct (in_dec string_dec n (loaded_names m)); auto. discriminate. }
  assert (E1 : switch_body start stop strictness m =
     Ready (set_please true (set_start_req (start_req m ++ resolve m start) (set_stop_req (stop_req m ++ resolve m stop) m)))).
  { unfold switch_body. replace (Z.eqb (if Z.eqb strictness 0 then BEST_EFFORT else strictness) STRICT) with false.
    - rewrite collect_spec. simpl. rewrite collect_spec. reflexivity.
    - symmetry. destruct (Z.eqb_spec strictness 0); [reflexivity|]. now apply Z.eqb_neq. }
  assert (E2 : switch_body (known m start) (known m stop) STRICT m =
     Ready (set_please true (set_start_req (start_req m ++ resolve m start) (set_stop_req (stop_req m ++ resolve m stop) m)))).
  { unfold switch_body. simpl. rewrite collect_spec. rewrite (proj2 (all_loaded_b m _ I) (Hkl stop)). simpl.
    rewrite resolve_known by auto.
    rewrite (collect_spec (set_stop_req (stop_req m ++ resolve m stop) m)).
    change (fun n0 : string => match getControllerByName (set_stop_req (stop_req m ++ resolve m stop) m) n0 with
          | Some _ => true | None => false end) with
         (fun n0 : string => match getControllerByName m n0 with Some _ => true | None => false end).
    rewrite (proj2 (all_loaded_b m _ I) (Hkl start)). simpl.
    change (resolve (set_stop_req (stop_req m ++ resolve m stop) m) (known m start)) with (resolve m (known m start)).
    rewrite resolve_known by auto. reflexivity. }
  unfold switchController. rewrite E1, E2. split; auto.
  destruct (switch_request_spec start stop strictness m I Hp) as [(X & _)|(_ & m' & E & I' & _)]; [tauto|].
  rewrite E1 in E. inversion E as [Em].
  destruct (update_spec H l1 l2 m' I' Hp1 Hp2) as (m'' & p1 & p2 & Eu & _).
  rewrite <- Em in Eu. rewrite Eu. cbn [bind]. eauto.
Qed.

(** C15 *)
Theorem C15_running_set_after_switch :
  forall start stop strictness l1 l2 (m m' : mgr), reachable H m -> please m = false ->
    switchController H start stop strictness l1 l2 m = Ok (Returned true, m') ->
    reachable H m' /\ loaded m' = loaded m /\
    (forall e, In e (loaded m) ->
       (running m' (e_ptr e) <->
        In (e_name e) start \/ (running m (e_ptr e) /\ ~ In (e_name e) stop))) /\
    (** every stop request comes before every start request, in request order, after all updates *)
    exists evs, trace m' = trace m ++ evs ++
        map (fun p => EvCb p CbStopping) (resolve m stop) ++
        map (fun p => EvCb p CbStarting) (resolve m start) ++ [EvSwitchDone].
Proof.
  intros start stop strictness l1 l2 m m' Hr Hp Hs. pose proof (inv_of m Hr) as I.
  destruct HP as [Hp1 Hp2]. unfold switchController in Hs.
  destruct (switch_request_spec start stop strictness m I Hp)
    as [(_ & _ & m1 & E & _)|(_ & m1 & E & I1 & Hsc & Hpl & Rs & Rp & Hh & Ht & _)]; rewrite E in Hs; [discriminate|].
  destruct (update_spec H l1 l2 m1 I1 Hp1 Hp2) as (m2 & pub1 & pub2 & Eu & I2 & L & Sd & N & U & C & P & Q1 & Q2 & T & _ & _ & St & _).
  rewrite Eu in Hs. cbn [bind] in Hs. inversion Hs; subst m2.
  split.
  { eapply reach_step; [|pose proof (step_update H m1 l1 l2) as X; rewrite Eu in X; exact X].
    eapply reach_step; [exact Hr|]. pose proof (step_switch H m start stop strictness Hp) as X. rewrite E in X. exact X. }
  split; [rewrite L; apply Hsc|]. split.
  - intros e He. unfold running. fold (state_of m' (e_ptr e)) (state_of m (e_ptr e)). rewrite St, Hpl.
    unfold switched_state. rewrite Rs, Rp.
    assert (Hex : forall ns, existsb (Nat.eqb (e_ptr e)) (resolve m ns) = true <-> In (e_name e) ns).
    { intros ns. rewrite existsb_exists. split.
      - intros (q & Hq & Eq). apply Nat.eqb_eq in Eq. subst q. apply (resolve_in m ns _ I) in Hq.
        destruct Hq as (n & Hn & Hin).
        assert (e = mkEntry n (e_ptr e)) as -> by (eapply nodup_ptrs_inj; [apply (inv_ptrs m I)|auto|auto|reflexivity]).
        exact Hn.
      - intros Hn. exists (e_ptr e). split; [|apply Nat.eqb_refl]. apply (resolve_in m ns _ I).
        exists (e_name e). split; auto. destruct e; exact He. }
    assert (Hsm : state_of m1 (e_ptr e) = state_of m (e_ptr e)) by (unfold state_of; now rewrite Hh).
    pose proof (Hex start) as X1. pose proof (Hex stop) as X2.
    destruct (existsb (Nat.eqb (e_ptr e)) (resolve m start)); [split; [intros _; left; now apply X1|reflexivity]|].
    assert (~ In (e_name e) start) by (intros X; apply X1 in X; discriminate).
    destruct (existsb (Nat.eqb (e_ptr e)) (resolve m stop)).
    + assert (In (e_name e) stop) by now apply X2. split; [discriminate|tauto].
    + assert (~ In (e_name e) stop) by (intros X; apply X2 in X; discriminate). rewrite Hsm. tauto.
  - rewrite T, Ht. unfold switch_events. rewrite Hpl, Rs, Rp.
    match goal with |- exists _, _ ++ ?a ++ ?b ++ ?c ++ ?d ++ ?e ++ ?f ++ _ = _ =>
      exists (a ++ b ++ c ++ d ++ e ++ f) end.
    rewrite <- !app_assoc. reflexivity.
Qed.

(* ------------------------------------------------------------------ C17, C18 *)

(** the execution order: every loaded controller once, respecting all ordering requests *)
Definition name_order (m : mgr) : list string :=
  flat_map (fun k => match nth_error (loaded m) k with Some e => [e_name e] | None => [] end) (scheds m (cur m)).

Theorem C17_execution_order :
  forall m : mgr, reachable H m ->
    Permutation (exec_order m) (map e_ptr (loaded m)) /\
    admissible (specs (heap m) (loaded m)) (name_order m) /\
    canonical (specs (heap m) (loaded m)) (name_order m).
Proof.
  intros m Hr. pose proof (inv_of m Hr) as I. split; [now apply exec_order_perm|].
  destruct (inv_sched m I) as (old & E).
  pose proof (schedule_correct (specs (heap m) (loaded m)) old) as Hc.
  rewrite names_specs in Hc. specialize (Hc (inv_names m I)). rewrite E in Hc.
  destruct Hc as (Hl & Hf & o & Ho & Hg & Hin & Hadm & _).
  assert (Hn : name_order m = o).
  { assert (Hs : map Some (name_order m) = map Some o).
    { rewrite <- Ho. unfold order_of, name_order. rewrite specs_length in Hf. clear -Hf.
      induction (scheds m (cur m)) as [|k s IH]; simpl; auto.
      inversion Hf; subst. unfold specs. rewrite nth_error_map. simpl.
      destruct (nth_error (loaded m) k) eqn:En; [|apply nth_error_None in En; lia].
      simpl. f_equal. apply IH; auto. }
    clear -Hs. revert o Hs. induction (name_order m) as [|x l IH]; intros [|y o] Hs; simpl in *; try discriminate; auto.
    inversion Hs; subst. f_equal. auto. }
  rewrite Hn. split; auto.
  intros pre x post Ex. destruct (Hg _ _ _ Ex) as (Ha & Hm). split; auto.
  intros y Hy. destruct (Hm y Hy) as [->|Hlt].
  - rewrite compare_refl. discriminate.
  - now apply slt_not_gt.
Qed.

(** C17/C18: the complete sequence of events of one control cycle.
    [restarts] is empty except in the first cycle with running motors after a cycle with halted motors. *)
Definition is_callback (e : event) : bool := match e with EvCb _ _ => true | _ => false end.

Theorem C17_cycle_events :
  forall l1 l2 (m : mgr), reachable H m ->
  exists m' restarts pubs,
    update H l1 l2 m = Ok m' /\ reachable H m' /\ loaded m' = loaded m /\
    trace m' = trace m ++
      [EvPropagate; EvZero] ++ restarts ++
      map (fun p => EvCb p CbUpdate) (filter (runningb m) (exec_order m)) ++
      [EvEnforce; EvEffort] ++ pubs ++
      (if please m then map (fun p => EvCb p CbStopping) (stop_req m) ++
                        map (fun p => EvCb p CbStarting) (start_req m) ++ [EvSwitchDone] else []) /\
    (forall e, In e pubs -> is_callback e = false) /\
    (forall e, In e restarts -> exists p, e = EvCb p CbStopping \/ e = EvCb p CbStarting).
Proof.
  intros l1 l2 m Hr. pose proof (inv_of m Hr) as I. destruct HP as [Hp1 Hp2].
  destruct (update_spec H l1 l2 m I Hp1 Hp2) as (m' & pub1 & pub2 & E & I' & L & Sd & N & U & C & P & Q1 & Q2 & T & B1 & B2 & _).
  exists m', (if negb (h_halted H (world (rt_pre H m))) && prev_halted m
        then flat_map (fun p => if runningb m p then [EvCb p CbStopping; EvCb p CbStarting] else [])
                      (exec_order m) else []), (pub1 ++ pub2).
  split; auto. split.
  { eapply reach_step; [exact Hr|]. pose proof (step_update H m l1 l2) as X. rewrite E in X. exact X. }
  split; auto.
  assert (Hfm : flat_map (fun p => if runningb m p then [EvCb p CbUpdate] else []) (exec_order m) =
          map (fun p => EvCb p CbUpdate) (filter (runningb m) (exec_order m))).
  { rewrite (flat_map_filter (runningb m) (fun p => [EvCb p CbUpdate])). apply flat_map_single. }
  split.
  { rewrite T, Hfm. unfold switch_events. rewrite <- !app_assoc. reflexivity. }
  split.
  - intros e Hin. apply in_app_iff in Hin. destruct Hin as [Hin|Hin].
    + destruct B1 as [->|(ss & -> & _)]; simpl in Hin; [tauto|]. destruct Hin as [<-|[]]. reflexivity.
    + destruct B2 as [->| ->]; simpl in Hin; [tauto|]. destruct Hin as [<-|[]]. reflexivity.
  - intros e Hin. destruct (negb _ && _); [|destruct Hin]. apply in_flat_map in Hin.
    destruct Hin as (p & _ & Hin). exists p. destruct (runningb m p); simpl in Hin; intuition.
Qed.

(** "exactly once": the number of update callbacks a controller gets in a cycle *)
Definition is_update_of (p : ptr) (e : event) : bool :=
  match e with EvCb q CbUpdate => Nat.eqb p q | _ => false end.
Definition count_updates (p : ptr) (evs : list event) : nat := List.length (filter (is_update_of p) evs).

Theorem C17_each_running_updated_exactly_once :
  forall l1 l2 (m : mgr), reachable H m ->
  exists m' evs, update H l1 l2 m = Ok m' /\ trace m' = trace m ++ evs /\
    (forall e, In e (loaded m) -> running m (e_ptr e) -> count_updates (e_ptr e) evs = 1) /\
    (forall p, ~ (In p (map e_ptr (loaded m)) /\ running m p) -> count_updates p evs = 0).
Proof.
  intros l1 l2 m Hr. pose proof (inv_of m Hr) as I.
  destruct (C17_cycle_events l1 l2 m Hr) as (m' & rs & pubs & E & _ & _ & T & Hpub & Hrs).
  exists m'. eexists. split; [exact E|]. split; [exact T|].
  assert (Happ : forall p a b, count_updates p (a ++ b) = count_updates p a + count_updates p b).
  { intros p a b. unfold count_updates. rewrite filter_app, app_length. reflexivity. }
  assert (Hz : forall p l, (forall e, In e l -> is_update_of p e = false) -> count_updates p l = 0).
  { intros p l Hl. unfold count_updates. induction l as [|e l IH]; simpl; auto.
    rewrite (Hl e (or_introl eq_refl)). apply IH. intros e' He'. apply Hl. now right. }
  assert (Hcount : forall p, count_updates p ([EvPropagate; EvZero] ++ rs ++
      map (fun p => EvCb p CbUpdate) (filter (runningb m) (exec_order m)) ++
      [EvEnforce; EvEffort] ++ pubs ++
      (if please m then map (fun p => EvCb p CbStopping) (stop_req m) ++
                        map (fun p => EvCb p CbStarting) (start_req m) ++ [EvSwitchDone] else [])) =
     count_occ Nat.eq_dec (filter (runningb m) (exec_order m)) p).
  { intros p. rewrite !Happ. rewrite (Hz p [EvPropagate; EvZero]).
    2:{ intros e [<-|[<-|[]]]; reflexivity. }
    rewrite (Hz p rs). 2:{ intros e He. destruct (Hrs e He) as (q & [->| ->]); reflexivity. }
    rewrite (Hz p [EvEnforce; EvEffort]).
    2:{ intros e [<-|[<-|[]]]; reflexivity. }
    rewrite (Hz p pubs). 2:{ intros e He. specialize (Hpub e He). destruct e; try reflexivity. discriminate. }
    rewrite (Hz p (if please m then _ else [])).
    2:{ intros e He. destruct (please m); [|destruct He]. rewrite !in_app_iff in He.
        destruct He as [He|[He|He]]; [apply in_map_iff in He; destruct He as (q & <- & _); reflexivity..|].
        destruct He as [<-|[]]; reflexivity. }
    simpl. rewrite Nat.add_0_r. unfold count_updates.
    generalize (filter (runningb m) (exec_order m)). clear.
    induction l as [|q l IH]; simpl; auto.
    destruct (Nat.eq_dec q p) as [->|Hne].
    - rewrite Nat.eqb_refl. simpl. now rewrite IH.
    - destruct (Nat.eqb_spec p q); [congruence|]. exact IH. }
  pose proof (exec_order_perm m I) as Hperm.
  assert (Hnd : NoDup (filter (runningb m) (exec_order m))).
  { apply NoDup_filter. eapply Permutation_NoDup; [apply Permutation_sym; exact Hperm|]. apply (inv_ptrs m I). }
  split.
  - intros e He Hrun. rewrite Hcount. apply NoDup_count_occ'; auto. apply filter_In. split.
    + eapply Permutation_in; [apply Permutation_sym; exact Hperm|]. now apply in_map.
    + unfold runningb. unfold running in Hrun. rewrite Hrun. reflexivity.
  - intros p Hno. rewrite Hcount. apply count_occ_not_In. intros Hin. apply Hno. apply filter_In in Hin.
    destruct Hin as [Hin Hb]. split; [eapply Permutation_in; [exact Hperm|exact Hin]|].
    unfold running. unfold runningb in Hb. destruct (co_state (heap m p)); try discriminate; auto.
Qed.

(** C18 *)
Theorem C18_restart_when_motors_reenabled :
  forall l1 l2 (m : mgr), reachable H m ->
  let halted_now := h_halted H (world (rt_pre H m)) in
  exists m' pubs,
    update H l1 l2 m = Ok m' /\
    trace m' = trace m ++
      [EvPropagate; EvZero] ++
      (if negb halted_now && prev_halted m
       then flat_map (fun p => [EvCb p CbStopping; EvCb p CbStarting]) (filter (runningb m) (exec_order m))
       else []) ++
      map (fun p => EvCb p CbUpdate) (filter (runningb m) (exec_order m)) ++
      [EvEnforce; EvEffort] ++ pubs /\
    (please m = false -> forall e, In e pubs -> is_callback e = false) /\
    (please m = false -> forall p, runningb m' p = runningb m p).
Proof.
  intros l1 l2 m Hr hn. pose proof (inv_of m Hr) as I. destruct HP as [Hp1 Hp2].
  destruct (update_spec H l1 l2 m I Hp1 Hp2) as (m' & pub1 & pub2 & E & I' & L & Sd & N & U & C & P & Q1 & Q2 & T & B1 & B2 & St & _).
  exists m', (pub1 ++ pub2 ++ switch_events m). split; auto. split.
  - rewrite T. fold hn.
    rewrite (flat_map_filter (runningb m) (fun p => [EvCb p CbStopping; EvCb p CbStarting])).
    rewrite (flat_map_filter (runningb m) (fun p => [EvCb p CbUpdate])), flat_map_single. reflexivity.
  - split.
    + intros Hp e Hin. unfold switch_events in Hin. rewrite Hp, app_nil_r in Hin. apply in_app_iff in Hin. destruct Hin as [Hin|Hin].
      * destruct B1 as [->|(ss & -> & _)]; simpl in Hin; [tauto|]. destruct Hin as [<-|[]]. reflexivity.
      * destruct B2 as [->| ->]; simpl in Hin; [tauto|]. destruct Hin as [<-|[]]. reflexivity.
    + intros Hp p. unfold runningb. fold (state_of m' p). rewrite St, Hp. reflexivity.
Qed.

(** ... and [prev_halted] is the halted flag the previous cycle saw. *)
Theorem C18_previous_flag :
  forall (m m1 : mgr), reachable H m -> rt_restart H m = Ok m1 -> prev_halted m1 = h_halted H (world m1).
Proof.
  intros m m1 _ E. unfold rt_restart in E. destruct (rt_list m); try discriminate. simpl in E.
  destruct (if rt_must_restart H m then _ else _) as [m2| | |]; try discriminate. simpl in E. inversion E. reflexivity.
Qed.

(* ------------------------------------------------------------------ C19 *)
Theorem C19_list_controllers :
  forall asserts (m : mgr), reachable H m ->
  exists answer, listControllers asserts m = Ok answer /\
    map fst answer = name_order m /\
    Permutation answer (map (fun e => (e_name e, runningb m (e_ptr e))) (loaded m)).
Proof.
  intros asserts m Hr. pose proof (inv_of m Hr) as I. rewrite (list_spec asserts m I).
  eexists. split; [reflexivity|]. split.
  - rewrite map_map. simpl. unfold order, name_order.
    induction (scheds m (cur m)) as [|k s IH]; simpl; auto. rewrite map_app, IH.
    destruct (nth_error (loaded m) k); reflexivity.
  - apply Permutation_map, order_perm, I.
Qed.

(* ------------------------------------------------------------------ C20 *)
Definition new_loaders (evs : list event) : nat :=
  List.length (filter (fun e => match e with EvNewLoader => true | _ => false end) evs).

Lemma unload_all_spec ns : forall (m : mgr), Inv m -> please m = false ->
  exists ok m', unload_all ns m = Ok (ok, m') /\ Inv m' /\ please m' = false /\ trace m' = trace m /\
    (ok = true -> forall e, In e (loaded m') -> In e (loaded m) /\ ~ In (e_name e) ns).
Proof.
  induction ns as [|n ns IH]; intros m I Hp; simpl.
  - exists true, m. repeat (split; auto).
  - destruct (unload_spec n m I Hp) as (b & m1 & E & I1 & Hp1 & Ht & Hn & Hh & Hb & Hl). rewrite E. simpl.
    destruct b.
    + destruct (IH m1 I1 Hp1) as (ok & m' & E' & I' & Hp' & Ht' & Hl'). exists ok, m'.
      split; auto. split; auto. split; auto. split; [congruence|]. intros Hok e He.
      destruct (Hl' Hok e He) as [X1 X2]. rewrite Hl in X1. unfold others in X1. apply filter_In in X1.
      destruct X1 as [X1 X3]. split; auto. intros [E0|Hin]; [rewrite <- E0, String.eqb_refl in X3; discriminate|auto].
    + exists false, m1. split; auto. split; auto. split; auto. split; auto. discriminate.
Qed.

Lemma unload_all_reach ns : forall (m m' : mgr) ok, reachable H m -> please m = false ->
  unload_all ns m = Ok (ok, m') -> reachable H m'.
Proof.
  induction ns as [|n ns IH]; intros m m' ok Hr Hp E; simpl in E.
  - inversion E; subst; auto.
  - pose proof (inv_of m Hr) as I. destruct (unload_spec n m I Hp) as (b & m1 & E1 & I1 & Hp1 & _).
    pose proof (step_unload H m n Hp) as Hs. rewrite E1 in Hs, E. simpl in E.
    assert (reachable H m1) by (eapply reach_step; eauto).
    destruct b; [eapply IH; eauto|]. inversion E; subst; auto.
Qed.

(** The loader is replaced only when nothing is loaded any more; a failing call never replaces it. *)
Theorem C20_loader_replaced_only_when_empty :
  forall asserts force l1 l2 (m m' : mgr) ok, reachable H m -> please m = false ->
    reloadControllerLibraries H asserts force l1 l2 m = Ok (ok, m') ->
    exists evs, trace m' = trace m ++ evs /\
      (if ok then new_loaders evs = 1 /\ loaded m' = [] else new_loaders evs = 0).
Proof.
  intros asserts force l1 l2 m m' ok Hr Hp E. pose proof (inv_of m Hr) as I.
  unfold reloadControllerLibraries, getControllerNames in E. simpl in E. fold (loaded m) in E.
  destruct (map e_name (loaded m)) as [|n0 ns0] eqn:En.
  { inversion E; subst. exists [EvNewLoader]. split; [reflexivity|]. split; [reflexivity|].
    destruct (loaded m) eqn:El; [|discriminate]. exact El. }
  destruct (negb force).
  { inversion E; subst. exists []. rewrite app_nil_r. auto. }
  destruct (C14_best_effort_ignores_exactly_unknown [] (n0 :: ns0) BEST_EFFORT l1 l2 m Hr Hp) as [(m1 & E1) _]; [discriminate|].
  rewrite E1 in E. cbn [bind] in E.
  destruct (C15_running_set_after_switch [] (n0 :: ns0) BEST_EFFORT l1 l2 m m1 Hr Hp E1) as (Hr1 & Hl1 & _ & _).
  (* events of the switch contain no loader event *)
  assert (Hev : exists evs, trace m1 = trace m ++ evs /\ new_loaders evs = 0 /\ please m1 = false).
  { unfold switchController in E1.
    destruct (switch_request_spec [] (n0 :: ns0) BEST_EFFORT m I Hp)
      as [(X & _)|(_ & mq & Eq & Iq & Hsc & Hpl & Rs & Rp & Hh & Ht & _)]; [discriminate|].
    rewrite Eq in E1.
    pose proof (C17_cycle_events l1 l2 mq) as X. 
    assert (Hrq : reachable H mq).
    { eapply reach_step; [exact Hr|]. pose proof (step_switch H m [] (n0 :: ns0) BEST_EFFORT Hp) as Y. rewrite Eq in Y. exact Y. }
    destruct HP as [Hp1 Hp2].
    destruct (update_spec H l1 l2 mq Iq Hp1 Hp2) as (m2 & pub1 & pub2 & Eu & I2 & L & Sd & N & U & C & P & Q1 & Q2 & T & B1 & B2 & _).
    rewrite Eu in E1. cbn [bind] in E1. inversion E1; subst m2.
    eexists. split; [rewrite T, Ht; reflexivity|]. split; [|exact P].
    assert (Happ : forall a b, new_loaders (a ++ b) = new_loaders a + new_loaders b).
    { intros a b. unfold new_loaders. rewrite filter_app, app_length. reflexivity. }
    assert (Hfm : forall (f : ptr -> list event) l, (forall p, new_loaders (f p) = 0) -> new_loaders (flat_map f l) = 0).
    { intros f l Hf. induction l as [|p l IH]; simpl; auto. rewrite Happ, Hf, IH. reflexivity. }
    assert (Hmm : forall c l, new_loaders (map (fun p => EvCb p c) l) = 0).
    { intros c l. induction l as [|p l IH]; simpl; auto. }
    rewrite !Happ. unfold switch_events.
    replace (new_loaders pub1) with 0 by (destruct B1 as [->|(ss & -> & _)]; reflexivity).
    replace (new_loaders pub2) with 0 by (destruct B2 as [->| ->]; reflexivity).
    rewrite (Hfm (fun p => if runningb mq p then [EvCb p CbUpdate] else [])) by (intros p; destruct (runningb mq p); reflexivity).
    rewrite Hpl, !Happ, !Hmm.
    destruct (negb _ && prev_halted mq); [|reflexivity].
    rewrite Hfm by (intros p; destruct (runningb mq p); reflexivity). reflexivity. }
  destruct Hev as (evs & Ht & Hz & Hpl1).
  pose proof (inv_of m1 Hr1) as I1.
  destruct (unload_all_spec (n0 :: ns0) m1 I1 Hpl1) as (ok2 & m2 & E2 & I2 & Hpl2 & Ht2 & Hl2).
  rewrite E2 in E. cbn [bind] in E.
  destruct ok2; simpl in E.
  - destruct asserts; [discriminate|]. simpl in E. inversion E; subst.
    exists (evs ++ [EvNewLoader]). split; [simpl; rewrite Ht2, Ht, <- app_assoc; reflexivity|].
    split.
    + unfold new_loaders in *. rewrite filter_app, app_length. rewrite Hz. reflexivity.
    + simpl. destruct (loaded m2) as [|e l] eqn:El; [exact El|]. exfalso.
      destruct (Hl2 eq_refl e (or_introl eq_refl)) as [X1 X2]. apply X2. rewrite <- En, <- Hl1. now apply in_map.
  - inversion E; subst. exists evs. rewrite Ht2, Ht. auto.
Qed.

Theorem C20_not_forced_untouched :
  forall asserts l1 l2 (m : mgr), reachable H m -> loaded m <> [] ->
    reloadControllerLibraries H asserts false l1 l2 m = Ok (false, m).
Proof.
  intros asserts l1 l2 m Hr Hne. unfold reloadControllerLibraries, getControllerNames. simpl. fold (loaded m).
  destruct (loaded m) as [|e l]; [tauto|]. reflexivity.
Qed.

(** With assertions enabled the service can never report success once a controller was loaded: the list of
    names is not cleared before it is filled again, so [assert(controllers.empty())] fails. *)
Theorem C20_forced_never_succeeds_with_asserts :
  forall l1 l2 (m m' : mgr) ok, reachable H m -> please m = false -> loaded m <> [] ->
    reloadControllerLibraries H true true l1 l2 m = Ok (ok, m') -> ok = false.
Proof.
  intros l1 l2 m m' ok Hr Hp Hne E.
  unfold reloadControllerLibraries, getControllerNames in E. simpl in E. fold (loaded m) in E.
  destruct (loaded m) as [|e l]; [tauto|]. simpl in E.
  destruct (switchController H [] _ BEST_EFFORT l1 l2 m) as [[[[|]|] m1]| | |]; try discriminate; simpl in E;
    try (now inversion E).
  match type of E with (bind ?x _) = _ => destruct x as [[[|] m2]| | |] end; simpl in E; try discriminate. now inversion E.
Qed.
End Theorems.

(* ------------------------------------------------------------------ non-vacuity *)
(** look at a result through an observation of the new state *)
Definition view {W A B} (f : mgr W -> B) (r : res (A * mgr W)) : res (A * B) :=
  match r with Ok (a, m) => Ok (a, f m) | UB => UB | Abort => Abort | Hang => Hang end.

Example C09_ex_success :
  view loaded_names (loadController exH exEnv "d" ex1) = Ok (Returned true, ["a"; "b"; "c"; "d"]).
Proof. vm_compute. reflexivity. Qed.
Example C09_ex_failures :
  map (fun n => view loaded_names (loadController exH exEnv n ex1)) ["x"; "y"; "t"; "zzz"; "bad name!"] =
  repeat (Ok (Returned false, ["a"; "b"; "c"])) 5.
Proof. vm_compute. reflexivity. Qed.
(** a class whose constructor throws something else *)
Example C09_ex_throws :
  view loaded_names (loadController exH
    (mkEnv (fun _ => true) (fun _ => Some "K") (fun _ => true) [] (fun c => c) (fun _ => CreateOtherException)) "n" ex1) =
  Ok (Exception, ["a"; "b"; "c"]).
Proof. vm_compute. reflexivity. Qed.
(** "c" may be unloaded; "a" has dependents, "b" runs *)
Example C11_ex :
  map (fun n => view loaded_names (unloadController n ex1)) ["c"; "a"; "b"] =
  [Ok (Returned true, ["a"; "b"]); Ok (Returned false, ["a"; "b"; "c"]); Ok (Returned false, ["a"; "b"; "c"])].
Proof. vm_compute. reflexivity. Qed.
Example C12_ex : handed_out ex1 1 = [("a", 0)] /\ In (mkEntry "a" 0) (loaded ex1).
Proof. vm_compute. auto. Qed.
Example C14_ex : ~ In "nobody" (loaded_names ex1) /\
  switchController exH ["c"; "nobody"] ["a"] STRICT true true ex1 = Ok (Returned false, ex1).
Proof.
  assert (X : ~ In "nobody" (loaded_names ex1)) by (vm_compute; intuition discriminate).
  split; [exact X|].
  apply (C14_strict_refused_as_a_whole exH exH_periods ["c"; "nobody"] ["a"] true true ex1 ex1_reachable);
    [vm_compute; reflexivity|].
  exists "nobody". split; [right; left; reflexivity|exact X].
Qed.
Example C15_ex :
  view (fun m' => map (runningb m') [0; 1; 4])
    (switchController exH ["c"; "a"] ["a"; "b"; "nobody"] 0 true true ex1) = Ok (Returned true, [true; false; true]).
Proof. vm_compute. reflexivity. Qed.
(** motors halt in one cycle and come back in the next: both running controllers are restarted *)
Example C18_ex :
  match exec exH [OpEnv (fun w => (fst w, true)); OpUpdate true true; OpEnv (fun w => (fst w, false))] ex1 with
  | Some m => match update exH true true m with
              | Ok m' => filter is_callback (skipn (List.length (trace m)) (trace m'))
              | _ => [] end
  | None => [] end =
    [EvCb 0 CbStopping; EvCb 0 CbStarting; EvCb 1 CbStopping; EvCb 1 CbStarting; EvCb 0 CbUpdate; EvCb 1 CbUpdate].
Proof. vm_compute. reflexivity. Qed.
Example C19_ex : listControllers true ex1 = Ok [("c", false); ("a", true); ("b", true)].
Proof. vm_compute. reflexivity. Qed.
(** "a" cannot be unloaded first (b and c depend on it): forced reload fails; with "a" alone it aborts *)
Example C20_ex_dependency :
  view loaded_names (reloadControllerLibraries exH true true true true ex1) = Ok (false, ["a"; "b"; "c"]).
Proof. vm_compute. reflexivity. Qed.
Example C20_ex_abort :
  match exec exH [OpLoad exEnv "a"; OpUpdate true true] ex0 with
  | Some m => view loaded_names (reloadControllerLibraries exH true true true true m)
  | None => UB end = Abort.
Proof. vm_compute. reflexivity. Qed.
