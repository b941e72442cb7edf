(** Proofs about the diagnostics node. *)
From Coq Require Import List String Bool ZArith Reals Lia Lra Sorted.
From Flocq Require Import Core.Zaux Core.Raux Core.Defs Core.Digits Core.Float_prop IEEE754.BinarySingleNaN.
From Verif.Model Require Import Base Num Manager System Diagnostics.
From Verif.Spec Require Import JointSpec DiagnosticsSpec.
From Verif.Proofs Require Import NumFacts.
Import ListNotations.
Local Open Scope list_scope.

(** ** the map *)
Lemma cmp_refl k : String.compare k k = Eq.
Proof. induction k as [|x k IH]; cbn; [reflexivity|]. unfold Ascii.compare. rewrite N.compare_refl. exact IH. Qed.
Section Map.
Context {A : Type}.
Implicit Type m : list (string * A).

Lemma sm_get_set k k' (v : A) m : sm_get k (sm_set k' v m) = if String.eqb k k' then Some v else sm_get k m.
Proof.
  induction m as [|[k0 v0] m IH]; cbn; [reflexivity|].
  destruct (String.compare k' k0) eqn:E; cbn.
  - apply String.compare_eq_iff in E; subst k0. destruct (String.eqb k k'); reflexivity.
  - reflexivity.
  - rewrite IH. destruct (String.eqb k k0) eqn:E0; [|reflexivity].
    apply String.eqb_eq in E0; subst k0. destruct (String.eqb k k') eqn:E1; [|reflexivity].
    apply String.eqb_eq in E1; subst k'. rewrite cmp_refl in E; discriminate.
Qed.

Lemma sm_get_erase k k' m : sm_get k (sm_erase k' m) = if String.eqb k k' then None else sm_get k m.
Proof.
  unfold sm_erase. induction m as [|[k0 v0] m IH]; cbn; [destruct (String.eqb k k'); reflexivity|].
  destruct (String.eqb k0 k') eqn:E; cbn.
  - rewrite IH. apply String.eqb_eq in E; subst k0. destruct (String.eqb k k'); reflexivity.
  - rewrite IH. destruct (String.eqb k k0) eqn:E0; [|reflexivity].
    apply String.eqb_eq in E0; subst k0. rewrite E. reflexivity.
Qed.

Lemma sm_get_map {B} (f : A -> B) k m : sm_get k (map (fun x => (fst x, f (snd x))) m) = option_map f (sm_get k m).
Proof. induction m as [|[k0 v0] m IH]; cbn; [reflexivity|]. destruct (String.eqb k k0); [reflexivity|exact IH]. Qed.

Lemma sm_get_in k v m : sm_get k m = Some v -> In (k, v) m.
Proof.
  induction m as [|[k0 v0] m IH]; cbn; [discriminate|].
  destruct (String.eqb k k0) eqn:E; [|auto]. apply String.eqb_eq in E; subst. intros [= ->]. auto.
Qed.
Lemma sm_get_none k m : sm_get k m = None -> ~ In k (map fst m).
Proof.
  induction m as [|[k0 v0] m IH]; cbn; [tauto|].
  destruct (String.eqb k k0) eqn:E; [discriminate|]. apply String.eqb_neq in E. intros G [X|X]; [congruence|tauto].
Qed.

Definition keys_sorted m := sorted_names (map fst m).

Lemma string_lt_trans a b c : String.compare a b = Lt -> String.compare b c = Lt -> String.compare a c = Lt.
Proof.
  revert b c. induction a as [|x a IH]; intros [|y b] [|z c]; cbn; try congruence; try reflexivity.
  unfold Ascii.compare. 
  destruct (N.compare (Ascii.N_of_ascii x) (Ascii.N_of_ascii y)) eqn:E1; intros H1;
  destruct (N.compare (Ascii.N_of_ascii y) (Ascii.N_of_ascii z)) eqn:E2; intros H2; try discriminate;
  rewrite ?N.compare_eq_iff, ?N.compare_lt_iff in *.
  - rewrite E1, E2. rewrite (proj2 (N.compare_eq_iff _ _) eq_refl). eauto.
  - rewrite E1. rewrite (proj2 (N.compare_lt_iff _ _) E2). reflexivity.
  - rewrite <- E2. rewrite (proj2 (N.compare_lt_iff _ _) E1). reflexivity.
  - rewrite (proj2 (N.compare_lt_iff _ _) (N.lt_trans _ _ _ E1 E2)). reflexivity.
Qed.

Lemma compare_gt a b : String.compare a b = Gt -> String.compare b a = Lt.
Proof. intros H. rewrite String.compare_antisym, H. reflexivity. Qed.

Lemma sm_set_keys k v m x : In x (map fst (sm_set k v m)) -> x = k \/ In x (map fst m).
Proof.
  induction m as [|[k0 v0] m IH]; cbn; [intros [<-|[]]; auto|].
  destruct (String.compare k k0); cbn; intros [<-|H]; auto.
  destruct (IH H); auto.
Qed.
Lemma sm_set_sorted k v m : keys_sorted m -> keys_sorted (sm_set k v m).
Proof.
  unfold keys_sorted, sorted_names. induction m as [|[k0 v0] m IH]; cbn; intros H; [repeat constructor|].
  inversion H as [|? ? H1 H2]; subst.
  destruct (String.compare k k0) eqn:E; cbn.
  - apply String.compare_eq_iff in E; subst. constructor; assumption.
  - constructor; [assumption|]. constructor; [exact E|].
    eapply Forall_impl; [|exact H2]. intros a Ha; cbn in Ha. eapply string_lt_trans; eassumption.
  - constructor; [exact (IH H1)|]. rewrite Forall_forall in *. intros x Hx. apply sm_set_keys in Hx as [->|Hx]; [|auto].
    apply compare_gt, E.
Qed.
Lemma sm_erase_sorted k m : keys_sorted m -> keys_sorted (sm_erase k m).
Proof.
  unfold keys_sorted, sorted_names. induction m as [|[k0 v0] m IH]; cbn; intros H; [constructor|].
  inversion H as [|? ? H1 H2]; subst. destruct (negb (String.eqb k0 k)); cbn; [|auto].
  constructor; [auto|]. rewrite Forall_forall in *. intros x Hx. apply H2.
  apply in_map_iff in Hx as ([a b] & <- & Hx). apply filter_In in Hx as [Hx _]. apply in_map_iff. exists (a, b); auto.
Qed.
Lemma sorted_get k v m : keys_sorted m -> In (k, v) m -> sm_get k m = Some v.
Proof.
  unfold keys_sorted, sorted_names. induction m as [|[k0 v0] m IH]; cbn; [tauto|]. intros H [E|E].
  - injection E as -> ->. rewrite String.eqb_refl. reflexivity.
  - inversion H as [|? ? H1 H2]; subst. rewrite Forall_forall in H2.
    assert (Hk : String.compare k0 k = Lt) by (apply H2, in_map_iff; exists (k, v); auto).
    destruct (String.eqb k k0) eqn:E0; [|auto]. apply String.eqb_eq in E0; subst.
    rewrite cmp_refl in Hk; discriminate.
Qed.
Lemma erase_all k (l : list (string * A)) m :
  sm_get k (fold_left (fun m kd => sm_erase (fst kd) m) l m) = if existsb (fun x => String.eqb k (fst x)) l then None else sm_get k m.
Proof.
  revert m. induction l as [|[k0 v0] l IH]; cbn; intros m; [reflexivity|].
  rewrite IH, sm_get_erase. destruct (String.eqb k k0); cbn; [|reflexivity]. destruct (existsb _ l); reflexivity.
Qed.
Lemma erase_all_sorted (l : list (string * A)) m : keys_sorted m -> keys_sorted (fold_left (fun m kd => sm_erase (fst kd) m) l m).
Proof. revert m. induction l as [|x l IH]; cbn; intros m H; [exact H|]. apply IH, sm_erase_sorted, H. Qed.
End Map.

(** ** what one joint or controller goes through *)
Definition jhear (o : option jdiag) (e : heard (jstat B64)) : option jdiag :=
  match e with
  | Got t m => Some (snd (jdiag_update t m (match o with Some d => d | None => new_jdiag (jo_name m) end)))
  | Reported _ => option_map (set_jd_reset true) o
  end.
Definition chear (nowarn : bool) (o : option cdiag) (e : heard cstat) : option cdiag :=
  match e with
  | Got t m => Some (snd (cdiag_update t m (match o with Some d => d | None => new_cdiag (cs_name m) nowarn end)))
  | Reported t => match o with Some d => if shouldDiscard t d then None else Some d | None => None end
  end.

Lemma update_joints_get n now js m :
  sm_get n (update_joints now js m) = fold_left jhear (map (Got now) (filter (fun j => String.eqb (jo_name j) n) js)) (sm_get n m).
Proof.
  revert m. induction js as [|j js IH]; cbn; intros m; [reflexivity|].
  rewrite IH, sm_get_set. destruct (String.eqb (jo_name j) n) eqn:E.
  - apply String.eqb_eq in E. rewrite <- E, String.eqb_refl. reflexivity.
  - rewrite String.eqb_sym, E. reflexivity.
Qed.
Lemma update_joints_sorted now js m : keys_sorted m -> keys_sorted (update_joints now js m).
Proof. revert m. induction js as [|j js IH]; cbn; intros m H; [exact H|]. apply IH, sm_set_sorted, H. Qed.
Lemma update_ctrls_get n now nw cs m :
  sm_get n (update_ctrls now nw cs m) = fold_left (chear nw) (map (Got now) (filter (fun c => String.eqb (cs_name c) n) cs)) (sm_get n m).
Proof.
  revert m. induction cs as [|j js IH]; cbn; intros m; [reflexivity|].
  rewrite IH, sm_get_set. destruct (String.eqb (cs_name j) n) eqn:E.
  - apply String.eqb_eq in E. rewrite <- E, String.eqb_refl. reflexivity.
  - rewrite String.eqb_sym, E. reflexivity.
Qed.
Lemma update_ctrls_sorted now nw cs m : keys_sorted m -> keys_sorted (update_ctrls now nw cs m).
Proof. revert m. induction cs as [|j js IH]; cbn; intros m H; [exact H|]. apply IH, sm_set_sorted, H. Qed.

Lemma drun_snoc nw h e : drun nw (h ++ [e]) = dstep (drun nw h) e.
Proof. unfold drun. rewrite fold_left_app. reflexivity. Qed.
Lemma about_joint_app n h h' : about_joint n (h ++ h') = about_joint n h ++ about_joint n h'.
Proof. apply flat_map_app. Qed.
Lemma about_ctrl_app n h h' : about_ctrl n (h ++ h') = about_ctrl n h ++ about_ctrl n h'.
Proof. apply flat_map_app. Qed.

Lemma drun_nowarn nw h : dn_nowarn (drun nw h) = nw.
Proof.
  induction h as [|e h IH] using rev_ind; [reflexivity|]. rewrite drun_snoc. destruct e; cbn; exact IH.
Qed.
Lemma jreport_after now d : snd (jdiag_report now d) = set_jd_reset true d.
Proof. unfold jdiag_report. destruct (jd_calibrated d), (now - jd_time d >? 3000000000)%Z, (negb _ || _ || _ || _); reflexivity. Qed.
Lemma publish_joints now nd : dn_joints (snd (publishDiag now nd)) = map (fun x => (fst x, set_jd_reset true (snd x))) (dn_joints nd).
Proof.
  unfold publishDiag. cbn [snd dn_joints]. rewrite map_map. apply map_ext. intros [k d]. cbn [fst snd]. rewrite jreport_after. reflexivity.
Qed.
Lemma drun_joints nw h : keys_sorted (dn_joints (drun nw h)) /\
  forall n, sm_get n (dn_joints (drun nw h)) = fold_left jhear (about_joint n h) None.
Proof.
  induction h as [|e h [IS IH]] using rev_ind; [split; [constructor|reflexivity]|]. rewrite drun_snoc.
  destruct e as [now js cs|now]; cbn [dstep mechCallback dn_joints].
  - split; [apply update_joints_sorted, IS|]. intros n. rewrite update_joints_get, IH, about_joint_app, fold_left_app. cbn.
    rewrite app_nil_r. reflexivity.
  - rewrite publish_joints. split.
    + unfold keys_sorted in *. rewrite map_map. cbn. exact IS.
    + intros n. rewrite (sm_get_map (set_jd_reset true)), IH, about_joint_app, fold_left_app. reflexivity.
Qed.
Lemma drun_ctrls nw h : keys_sorted (dn_ctrls (drun nw h)) /\
  forall n, sm_get n (dn_ctrls (drun nw h)) = fold_left (chear nw) (about_ctrl n h) None.
Proof.
  induction h as [|e h [IS IH]] using rev_ind; [split; [constructor|reflexivity]|]. rewrite drun_snoc.
  destruct e as [now js cs|now]; cbn.
  - split; [apply update_ctrls_sorted, IS|]. intros n. rewrite update_ctrls_get, IH, about_ctrl_app, fold_left_app. cbn.
    rewrite app_nil_r, drun_nowarn. reflexivity.
  - split; [apply erase_all_sorted, IS|]. intros n. rewrite erase_all, about_ctrl_app, fold_left_app, <- IH. cbn.
    destruct (sm_get n (dn_ctrls (drun nw h))) as [d|] eqn:E.
    + pose proof (sm_get_in _ _ _ E) as HI.
      destruct (shouldDiscard now d) eqn:SD.
      * replace (existsb _ _) with true; [reflexivity|]. symmetry. apply existsb_exists.
        exists (n, d). split; [apply filter_In; auto|apply String.eqb_refl].
      * replace (existsb _ _) with false; [reflexivity|]. symmetry. apply not_true_is_false. intros X.
        apply existsb_exists in X as ([k d'] & HX & HE). apply filter_In in HX as [HX HD]. cbn in *.
        apply String.eqb_eq in HE; subst k. rewrite (sorted_get _ _ _ IS HX) in E. congruence.
    + destruct (existsb _ _); reflexivity.
Qed.

Lemma about_joint_names n h : Forall (fun e => match e with Got _ m => jo_name m = n | Reported _ => True end) (about_joint n h).
Proof.
  apply Forall_forall. intros e H. apply in_flat_map in H as ([t js cs|t] & _ & H).
  - apply in_map_iff in H as (j & <- & H). apply filter_In in H as [_ H]. apply String.eqb_eq, H.
  - destruct H as [<-|[]]. exact I.
Qed.
Lemma about_ctrl_names n h : Forall (fun e => match e with Got _ m => cs_name m = n | Reported _ => True end) (about_ctrl n h).
Proof.
  apply Forall_forall. intros e H. apply in_flat_map in H as ([t js cs|t] & _ & H).
  - apply in_map_iff in H as (j & <- & H). apply filter_In in H as [_ H]. apply String.eqb_eq, H.
  - destruct H as [<-|[]]. exact I.
Qed.

(** ** joints *)
Definition named n (e : heard (jstat B64)) := match e with Got _ m => jo_name m = n | Reported _ => True end.
Lemma jupdate_name t m d : jd_name (snd (jdiag_update t m d)) = jd_name d.
Proof. unfold jdiag_update. destruct (negb _), (jd_reset d), (jo_is_calibrated m); reflexivity. Qed.
Lemma jfold_name n l d : Forall (named n) l -> fold_left jhear l None = Some d -> jd_name d = n.
Proof.
  revert d. induction l as [|e l IH] using rev_ind; [discriminate|]. intros d HF. rewrite fold_left_app. cbn.
  apply Forall_app in HF as [H1 H2]. inversion H2 as [|? ? H3 _]; subst.
  destruct e as [t m|t]; cbn in *.
  - intros [= <-]. rewrite jupdate_name. destruct (fold_left jhear l None) as [d'|]; [apply IH; auto|exact H3].
  - destruct (fold_left jhear l None) as [d'|]; [|discriminate]. intros [= <-]. cbn. apply IH; auto.
Qed.
Lemma reports_keep rs d : exists b, fold_left jhear (map Reported rs) (Some d) = Some (set_jd_reset b d).
Proof.
  revert d. induction rs as [|r rs IH]; intros d; cbn.
  - exists (jd_reset d). destruct d; reflexivity.
  - destruct (IH (set_jd_reset true d)) as (b & ->). exists b. reflexivity.
Qed.

Definition holds (m : jstat B64) (d : jdiag) : Prop :=
  jd_position d = jo_position m /\ jd_velocity d = jo_velocity m /\ jd_measured d = jo_measured_effort m /\
  jd_commanded d = jo_commanded_effort m /\ jd_calibrated d = jo_is_calibrated m /\ jd_limits d = jo_violated_limits m /\
  jd_odometer d = jo_odometer m.
Lemma jupdate_holds t m d : jd_name d = jo_name m -> holds m (snd (jdiag_update t m d)) /\ jd_time (snd (jdiag_update t m d)) = t.
Proof.
  intros E. unfold jdiag_update. rewrite E, String.eqb_refl. cbn.
  destruct (jd_reset d), (jo_is_calibrated m) eqn:C; cbn; unfold holds; cbn; rewrite ?C; auto 10.
Qed.
Lemma jfold_last n l t m rs : Forall (named n) l -> last_got l t m rs ->
  exists d, fold_left jhear l None = Some d /\ holds m d /\ jd_time d = t /\ jd_name d = n.
Proof.
  intros HF (pre & ->). pose proof HF as HF0. apply Forall_app in HF as [H1 H2]. inversion H2 as [|? ? H3 _]; subst. cbn in H3.
  rewrite fold_left_app. cbn.
  destruct (reports_keep rs (snd (jdiag_update t m match fold_left jhear pre None with Some d => d | None => new_jdiag (jo_name m) end)))
    as (b & E).
  eexists. split; [exact E|].
  assert (N : jd_name match fold_left jhear pre None with Some d => d | None => new_jdiag (jo_name m) end = jo_name m).
  { destruct (fold_left jhear pre None) as [d|] eqn:F; [|reflexivity]. rewrite (jfold_name _ _ _ H1 F). auto. }
  destruct (jupdate_holds t m _ N) as [HH HT].
  split; [|split; [exact HT|]].
  - unfold holds in *. cbn. exact HH.
  - cbn. rewrite jupdate_name, N. exact H3.
Qed.

(** the window *)
Definition wmax (f : jstat B64 -> B64) (w : list (jstat B64)) (acc : B64) : B64 :=
  fold_left nmax (map f (filter (@jo_is_calibrated B64) w)) acc.
Lemma jfold_window_aux n ts w d : List.length ts = List.length w ->
  Forall (named n) (map (fun x => Got (fst x) (snd x)) (combine ts w)) -> jd_name d = n -> jd_reset d = false ->
  exists d', fold_left jhear (map (fun x => Got (fst x) (snd x)) (combine ts w)) (Some d) = Some d' /\ jd_reset d' = false /\
    jd_maxpos d' = wmax (@jo_max_position B64) w (jd_maxpos d) /\
    jd_maxvel d' = wmax (@jo_max_abs_velocity B64) w (jd_maxvel d) /\
    jd_maxeff d' = wmax (@jo_max_abs_effort B64) w (jd_maxeff d) /\
    forall w' j, w = w' ++ [j] -> jo_is_calibrated j = true -> jd_minpos d' = nmin (jd_maxpos d') (jo_min_position j).
Proof.
  revert ts d. induction w as [|j w IH]; intros [|t ts] d L HF HN HR; try discriminate L.
  - exists d. cbn. split; [reflexivity|]. repeat (split; [assumption||reflexivity|]). intros w' j E. destruct w'; discriminate E.
  - cbn in HF. inversion HF as [|? ? H1 H2]; subst. cbn in H1. cbn [combine map fold_left fst snd jhear].
    set (d1 := snd (jdiag_update t j d)).
    assert (X : jd_reset d1 = false /\ jd_maxpos d1 = wmax (@jo_max_position B64) [j] (jd_maxpos d) /\
                jd_maxvel d1 = wmax (@jo_max_abs_velocity B64) [j] (jd_maxvel d) /\
                jd_maxeff d1 = wmax (@jo_max_abs_effort B64) [j] (jd_maxeff d) /\
                (jo_is_calibrated j = true -> jd_minpos d1 = nmin (jd_maxpos d1) (jo_min_position j))).
    { unfold d1, jdiag_update. rewrite H1, String.eqb_refl, HR. unfold wmax. cbn [negb].
      destruct (jo_is_calibrated j) eqn:C; cbn [filter map fold_left]; rewrite C; cbn;
      repeat (split; [assumption || reflexivity|]); [reflexivity|discriminate]. }
    destruct X as (X1 & X2 & X3 & X4 & X5).
    destruct (IH ts d1 ltac:(cbn in L; lia) H2 ltac:(unfold d1; rewrite jupdate_name; reflexivity) X1)
      as (d' & E & R & M1 & M2 & M3 & M4).
    exists d'. split; [exact E|]. split; [exact R|].
    assert (W : forall f acc, wmax f (j :: w) acc = wmax f w (wmax f [j] acc)).
    { intros f acc. unfold wmax. cbn. destruct (jo_is_calibrated j); reflexivity. }
    rewrite !W, <- X2, <- X3, <- X4. split; [exact M1|]. split; [exact M2|]. split; [exact M3|].
    intros w' j' E' C. destruct w' as [|j0 w']; cbn in E'; injection E' as -> ->.
    + destruct ts; [|discriminate L]. cbn in E. injection E as <-. apply X5, C.
    + apply (M4 w'); auto.
Qed.

Lemma jfold_window n l w : Forall (named n) l -> window l w ->
  exists d, fold_left jhear l None = Some d /\
    jd_maxpos d = wmax (@jo_max_position B64) w (Bopp b64_max) /\
    jd_maxvel d = wmax (@jo_max_abs_velocity B64) w (Bopp b64_max) /\
    jd_maxeff d = wmax (@jo_max_abs_effort B64) w (Bopp b64_max) /\
    forall w' j, w = w' ++ [j] -> jo_is_calibrated j = true -> jd_minpos d = nmin (jd_maxpos d) (jo_min_position j).
Proof.
  intros HF (pre & ts & rs & -> & L & NE & HP). apply Forall_app in HF as [H1 H2]. apply Forall_app in H2 as [H2 _].
  rewrite !fold_left_app.
  destruct w as [|j w]; [congruence|]. destruct ts as [|t ts]; [discriminate L|].
  pose proof H2 as H2a. cbn in H2a. inversion H2a as [|? ? Hj _]. cbn in Hj. subst n.
  (* the object that receives the first message: its window is reset by it *)
  set (d0 := match fold_left jhear pre None with Some d => d | None => new_jdiag (jo_name j) end).
  assert (N0 : jd_name d0 = jo_name j).
  { unfold d0. destruct (fold_left jhear pre None) as [d|] eqn:F; [apply (jfold_name _ _ _ H1 F)|reflexivity]. }
  assert (R0 : jd_reset d0 = true).
  { unfold d0. destruct HP as [-> |(pre' & t' & ->)]; [reflexivity|]. rewrite fold_left_app. cbn.
    destruct (fold_left jhear pre' None); reflexivity. }
  assert (E0 : fold_left jhear (map (fun x => Got (fst x) (snd x)) (combine (t :: ts) (j :: w))) (fold_left jhear pre None)
             = fold_left jhear (map (fun x => Got (fst x) (snd x)) (combine (t :: ts) (j :: w))) (Some (reset_vals d0))).
  { cbn [combine map fold_left fst snd jhear]. f_equal. f_equal. fold d0. unfold jdiag_update. cbn [jd_name reset_vals set_jd_reset set_jd_maxpos set_jd_minpos set_jd_maxvel set_jd_maxeff jd_reset].
    rewrite N0, String.eqb_refl, R0. reflexivity. }
  rewrite E0.
  destruct (jfold_window_aux (jo_name j) (t :: ts) (j :: w) (reset_vals d0) L H2 N0 eq_refl) as (d' & -> & R & M1 & M2 & M3 & M4).
  destruct (reports_keep rs d') as (b & ->). eexists. split; [reflexivity|]. cbn [set_jd_reset jd_maxpos jd_maxvel jd_maxeff jd_minpos].
  auto 10.
Qed.

(** ** numbers *)
Lemma nmax_spec (a x : B64) : not_nan a -> not_nan (nmax a x) /\ fle a (nmax a x) /\ (not_nan x -> fle x (nmax a x)) /\ (nmax a x = a \/ nmax a x = x).
Proof.
  unfold not_nan, fle, nmax. cbn [nltb num_b64]. intros NA.
  assert (NN : forall y : B64, is_nan y = false <-> exists r, b64_ord y = Some r).
  { intros [s|s| |s m e B]; cbn; split; intros HH; try discriminate; try (eexists; reflexivity); try reflexivity;
    destruct HH as [? HH]; discriminate HH. }
  destruct (proj1 (NN a) NA) as (ra & Ha).
  rewrite b64_ltb_ord, Ha. destruct (b64_ord x) as [rx|] eqn:Hx.
  - destruct (Rlt_bool ra rx) eqn:C.
    + split; [apply NN; eauto|]. rewrite !b64_leb_ord, Ha, Hx.

      split; [|split; [|auto]].
      * apply Rle_bool_true. revert C. case Rlt_bool_spec; intros; [lra|discriminate].
      * intros _. apply Rle_bool_true. lra.
    + split; [exact NA|]. rewrite !b64_leb_ord, Ha, Hx. split; [|split; [|auto]].
      * apply Rle_bool_true; lra.
      * intros _. apply Rle_bool_true. revert C. case Rlt_bool_spec; intros; [discriminate|lra].
  - split; [exact NA|]. split; [|split; [|auto]].
    + rewrite b64_leb_ord, Ha. apply Rle_bool_true; lra.
    + intros X. apply NN in X as (r & X). congruence.
Qed.

Lemma fle_trans (x y z : B64) : fle x y -> fle y z -> fle x z.
Proof.
  unfold fle. rewrite !b64_leb_ord. destruct (b64_ord x), (b64_ord y), (b64_ord z); try discriminate.
  case Rle_bool_spec; [|discriminate]. case Rle_bool_spec; [|discriminate]. intros. apply Rle_bool_true. lra.
Qed.
Lemma fle_refl (x : B64) : not_nan x -> fle x x.
Proof.
  unfold fle, not_nan. rewrite b64_leb_ord. destruct x; cbn; intros; try discriminate; apply Rle_bool_true; lra.
Qed.
Lemma fold_max (l : list B64) (a : B64) : not_nan a ->
  not_nan (fold_left nmax l a) /\ (forall x, In x l -> not_nan x -> fle x (fold_left nmax l a)) /\ fle a (fold_left nmax l a) /\
  (fold_left nmax l a = a \/ In (fold_left nmax l a) l).
Proof.
  revert a. induction l as [|x l IH]; cbn [fold_left]; intros a NA.
  - repeat split; [exact NA|intros ? []|apply fle_refl, NA|auto].
  - destruct (nmax_spec a x NA) as (N1 & N2 & N3 & N4). destruct (IH _ N1) as (M1 & M2 & M3 & M4).
    split; [exact M1|]. split; [|split].
    + intros y [<-|Hy] Ny; [eapply fle_trans; eauto|auto].
    + eapply fle_trans; eauto.
    + cbn. destruct M4 as [M4|M4]; [|auto]. rewrite M4. destruct N4 as [->| ->]; auto.
Qed.
Lemma wmax_is_max f w : is_max (wmax f w (Bopp b64_max)) (map f (filter (@jo_is_calibrated B64) w)).
Proof. unfold is_max, wmax. apply (fold_max _ (Bopp b64_max)). reflexivity. Qed.

Lemma nmin_small (M x y : B64) : fle x y -> fle y M -> nmin M x = x \/ (fle x (nmin M x) /\ fle (nmin M x) x).
Proof.
  intros H1 H2. pose proof (fle_trans _ _ _ H1 H2) as H3. unfold nmin. cbn [nltb num_b64].
  destruct (Bltb x M) eqn:E; [auto|]. right. unfold fle in *. split; [exact H3|].
  rewrite b64_ltb_ord in E. rewrite b64_leb_ord in *. destruct (b64_ord x), (b64_ord M); try discriminate.
  revert E. case Rlt_bool_spec; [discriminate|]. intros. apply Rle_bool_true. lra.
Qed.

Lemma is_valid_spec (x : B64) : is_valid x = true <-> proper x.
Proof.
  unfold is_valid, proper. change (@nzero B64 num_b64) with (@B754_zero 53 1024 false). cbn [neqb num_b64].
  destruct x as [s|s| |s m e B].
  - cbn. split; auto.
  - destruct s; cbn; split; intros HH; try discriminate HH; destruct HH as [HH _]; discriminate HH.
  - cbn; split; intros HH; try discriminate HH; destruct HH as [HH _]; discriminate HH.
  - assert (Z0 : Beqb (B754_finite s m e B) (B754_zero false) = false) by (destruct s; reflexivity).
    rewrite Z0. cbn [is_finite].
    assert (V : Rabs (B2R (B754_finite s m e B)) = (IZR (Zpos m) * bpow radix2 e)%R).
    { cbn [B2R]. rewrite F2R_cond_Zopp. rewrite abs_cond_Ropp. unfold F2R. cbn [Fnum Fexp]. 
      rewrite Rabs_pos_eq; [reflexivity|]. apply Rmult_le_pos; [apply IZR_le; lia|apply bpow_ge_0]. }
    assert (NZ : B2R (B754_finite s m e B) <> 0%R).
    { intros X. rewrite X, Rabs_R0 in V. symmetry in V. apply Rmult_integral in V as [V|V].
      - apply eq_IZR in V. discriminate.
      - pose proof (bpow_gt_0 radix2 e). lra. }
    rewrite V. pose proof B as B0. unfold SpecFloat.bounded, SpecFloat.canonical_mantissa in B0.
    apply andb_prop in B0 as [B1 _]. apply Zeq_bool_eq in B1. unfold SpecFloat.fexp, SpecFloat.emin in B1.
    rewrite Zpos_digits2_pos in B1.
    assert (P : (Zpower radix2 52 = 2 ^ 52)%Z) by reflexivity.
    assert (BP : (bpow radix2 (-1022) = IZR (2 ^ 52) * bpow radix2 (-1074))%R).
    { change (-1022)%Z with (52 + -1074)%Z. rewrite bpow_plus. f_equal. }
    destruct (Z.geb_spec (Zpos m) (2 ^ 52)) as [C|C].
    + split; [|reflexivity]. intros _. split; [reflexivity|]. right.
      rewrite BP. apply Rmult_le_compat; [apply IZR_le; lia|apply bpow_ge_0|apply IZR_le; lia|apply bpow_le]. lia.
    + split; [discriminate|]. intros [_ [X|X]]; [contradiction|]. exfalso.
      assert (D : (Zdigits radix2 (Zpos m) <= 52)%Z) by (apply Zdigits_le_Zpower; rewrite P, Z.abs_eq; lia).
      assert (Ee : e = (-1074)%Z) by lia. subst e. rewrite BP in X.
      apply Rmult_le_reg_r in X; [|apply bpow_gt_0]. apply le_IZR in X. lia.
Qed.

(** ** controllers *)
Definition cnamed n (e : heard cstat) := match e with Got _ m => cs_name m = n | Reported _ => True end.
Definition cholds (nw : bool) (t : Z) (m : cstat) (d : cdiag) : Prop :=
  cd_time d = t /\ cd_name d = cs_name m /\ cd_running d = cs_running m /\ cd_samples d = cs_samples m /\
  cd_overruns d = cs_overruns m /\ cd_last_overrun d = cs_last_overrun m /\ cd_nowarn d = nw.
Lemma cupdate_holds nw t m d : cd_name d = cs_name m -> cd_nowarn d = nw -> cholds nw t m (snd (cdiag_update t m d)).
Proof. intros E W. unfold cdiag_update. rewrite E, String.eqb_refl. cbn. unfold cholds. cbn. auto 10. Qed.
Lemma cfold_inv nw n l d : Forall (cnamed n) l -> fold_left (chear nw) l None = Some d -> cd_name d = n /\ cd_nowarn d = nw.
Proof.
  revert d. induction l as [|e l IH] using rev_ind; [discriminate|]. intros d HF. rewrite fold_left_app. cbn.
  apply Forall_app in HF as [H1 H2]. inversion H2 as [|? ? H3 _]; subst.
  destruct e as [t m|t]; cbn in *.
  - intros [= <-].
    assert (N : cd_name match fold_left (chear nw) l None with Some d => d | None => new_cdiag (cs_name m) nw end = cs_name m /\
                cd_nowarn match fold_left (chear nw) l None with Some d => d | None => new_cdiag (cs_name m) nw end = nw).
    { destruct (fold_left (chear nw) l None) as [d'|]; [|auto]. subst n. apply IH; auto. }
    destruct (cupdate_holds nw t m _ (proj1 N) (proj2 N)) as (_ & A & _ & _ & _ & _ & B). rewrite A. auto.
  - destruct (fold_left (chear nw) l None) as [d'|]; [|discriminate]. destruct (shouldDiscard t d'); [discriminate|].
    intros [= <-]. apply IH; auto.
Qed.
Lemma cfold_reports nw rs d : fold_left (chear nw) (map Reported rs) (Some d) =
  if existsb (fun t => shouldDiscard t d) rs then None else Some d.
Proof.
  induction rs as [|r rs IH]; cbn; [reflexivity|]. destruct (shouldDiscard r d) eqn:E; cbn; [|exact IH].
  clear. induction rs as [|r rs IH]; cbn; auto.
Qed.
Lemma cfold_none nw rs : fold_left (chear nw) (map Reported rs) None = None.
Proof. induction rs as [|r rs IH]; cbn; auto. Qed.
Lemma heard_split {A} (l : list (heard A)) : (exists rs, l = map Reported rs) \/ (exists t m rs, last_got l t m rs).
Proof.
  induction l as [|[t m|t] l IH]; [left; exists []; reflexivity| |].
  - destruct IH as [(rs & ->)|(t' & m' & rs & pre & ->)]; right.
    + exists t, m, rs, []. reflexivity.
    + exists t', m', rs, (Got t m :: pre). reflexivity.
  - destruct IH as [(rs & ->)|(t' & m' & rs & pre & ->)].
    + left. exists (t :: rs). reflexivity.
    + right. exists t', m', rs, (Reported t :: pre). reflexivity.
Qed.
Lemma cfold_last nw n l t m rs : Forall (cnamed n) l -> last_got l t m rs ->
  exists d, cholds nw t m d /\
    fold_left (chear nw) l None = if existsb (fun t' => (t' - t >? stale)%Z) rs then None else Some d.
Proof.
  intros HF (pre & ->). apply Forall_app in HF as [H1 H2]. inversion H2 as [|? ? H3 _]; subst. cbn in H3.
  rewrite fold_left_app. cbn [fold_left chear]. rewrite cfold_reports.
  set (d0 := match fold_left (chear nw) pre None with Some d => d | None => new_cdiag (cs_name m) nw end).
  assert (N : cd_name d0 = cs_name m /\ cd_nowarn d0 = nw).
  { unfold d0. destruct (fold_left (chear nw) pre None) as [d|] eqn:F; [|auto].
    destruct (cfold_inv _ _ _ _ H1 F). rewrite H3. auto. }
  pose proof (cupdate_holds nw t m d0 (proj1 N) (proj2 N)) as HH.
  exists (snd (cdiag_update t m d0)). split; [exact HH|]. unfold shouldDiscard. destruct HH as (-> & _). reflexivity.
Qed.
