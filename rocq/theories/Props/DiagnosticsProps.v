(** C61, C62, C63: the diagnostics node, for every history of messages and reports. *)
From Coq Require Import List String Bool ZArith Reals Lia Lra Sorted.
From Flocq Require Import Core.Zaux Core.Raux IEEE754.BinarySingleNaN.
From Verif.Model Require Import Base Num Manager System Diagnostics.
From Verif.Spec Require Import JointSpec DiagnosticsSpec.
From Verif.Proofs Require Import NumFacts DiagnosticsProofs.
Import ListNotations.
Local Open Scope list_scope.

Lemma joint_label_inj a b : joint_label a = joint_label b -> a = b.
Proof.
  unfold joint_label. cbn. intros [= H]. revert b H. induction a as [|x a IH]; intros [|y b]; cbn; intros H; try reflexivity.
  - injection H as H1 H2. destruct b; discriminate H2.
  - injection H as H1 H2. destruct a; discriminate H2.
  - injection H as -> H. f_equal. apply IH, H.
Qed.
Lemma ctrl_label_inj a b : ctrl_label a = ctrl_label b -> a = b.
Proof. intros H. apply joint_label_inj. unfold ctrl_label in H. cbn in H. unfold joint_label. cbn. congruence. Qed.

Lemma jreport_name now d : ds_name (fst (jdiag_report now d)) = joint_label (jd_name d).
Proof. unfold jdiag_report. destruct (jd_calibrated d), (now - jd_time d >? 3000000000)%Z, (negb _ || _ || _ || _); reflexivity. Qed.
Lemma creport_name now d : ds_name (cdiag_report now d) = ctrl_label (cd_name d).
Proof. unfold cdiag_report. destruct (cd_running d), (negb _ && _), (now - cd_last_overrun d <? 30000000000)%Z; reflexivity. Qed.

Lemma joint_entry nw h n d : In (n, d) (dn_joints (drun nw h)) ->
  jd_name d = n /\ fold_left jhear (about_joint n h) None = Some d.
Proof.
  intros HI. destruct (drun_joints nw h) as [SO GE]. pose proof (sorted_get _ _ _ SO HI) as E. rewrite GE in E.
  split; [|exact E]. eapply jfold_name; [apply about_joint_names|exact E].
Qed.
Lemma ctrl_entry nw h n d : In (n, d) (dn_ctrls (drun nw h)) ->
  cd_name d = n /\ fold_left (chear nw) (about_ctrl n h) None = Some d.
Proof.
  intros HI. destruct (drun_ctrls nw h) as [SO GE]. pose proof (sorted_get _ _ _ SO HI) as E. rewrite GE in E.
  split; [|exact E]. eapply cfold_inv; [apply about_ctrl_names|exact E].
Qed.

Lemma jfold_some n h : (fold_left jhear (about_joint n h) None <> None) <-> exists t m, In (Got t m) (about_joint n h).
Proof.
  destruct (heard_split (about_joint n h)) as [(rs & E)|(t & m & rs & L)].
  - rewrite E. split.
    + intros H. exfalso. apply H. clear. induction rs; cbn; auto.
    + intros (t & m & H). apply in_map_iff in H as (x & H & _). discriminate H.
  - pose proof (about_joint_names n h) as N. destruct (jfold_last _ _ _ _ _ N L) as (d & E & _). rewrite E.
    split; [|discriminate]. intros _. exists t, m. destruct L as (pre & ->). apply in_or_app. cbn. auto.
Qed.
Lemma cfold_kept nw n h : (fold_left (chear nw) (about_ctrl n h) None <> None) <-> kept (about_ctrl n h).
Proof.
  destruct (heard_split (about_ctrl n h)) as [(rs & E)|(t & m & rs & L)].
  - rewrite E. split.
    + intros H. exfalso. apply H, cfold_none.
    + intros (t & m & rs' & (pre & H) & _). exfalso.
      assert (X : In (Got t m) (map Reported rs)) by (rewrite H; apply in_or_app; cbn; auto).
      apply in_map_iff in X as (x & X & _). discriminate X.
  - pose proof (about_ctrl_names n h) as N. destruct (cfold_last nw _ _ _ _ _ N L) as (d & _ & E). rewrite E.
    assert (U : forall t' m' rs', last_got (about_ctrl n h) t' m' rs' -> t' = t /\ rs' = rs).
    { clear - L. revert L. generalize (about_ctrl n h). intros l (pre & ->) t' m' rs' (pre' & E).
      assert (X : rev (pre ++ Got t m :: map Reported rs) = rev (pre' ++ Got t' m' :: map Reported rs')) by (f_equal; exact E).
      rewrite !rev_app_distr in X. cbn in X. rewrite <- !map_rev, <- !app_assoc in X. cbn in X.
      assert (Y : forall (a b : list Z) (x y : list (heard cstat)), map Reported a ++ Got t m :: x = map Reported b ++ Got t' m' :: y -> a = b /\ t' = t).
      { induction a as [|u a IH]; intros [|v b] x y H; cbn in H; try discriminate H; [injection H; auto|].
        injection H as <- H. destruct (IH _ _ _ H). subst. auto. }
      destruct (Y _ _ _ _ X) as [Y1 Y2]. split; [exact Y2|]. rewrite <- (rev_involutive rs'), <- Y1. apply rev_involutive. }
    split.
    + intros H. exists t, m, rs. split; [exact L|]. apply Forall_forall. intros t' Ht'.
      destruct (Z.gtb_spec (t' - t) stale) as [G|G]; [|exact G]. exfalso. apply H.
      replace (existsb _ rs) with true; [reflexivity|]. symmetry. apply existsb_exists. exists t'. split; [exact Ht'|].
      apply Z.gtb_lt. lia.
    + intros (t' & m' & rs' & L' & F). destruct (U _ _ _ L') as [-> ->].
      replace (existsb _ rs) with false; [discriminate|]. symmetry. apply not_true_is_false. intros X.
      apply existsb_exists in X as (x & X1 & X2). rewrite Forall_forall in F. apply F in X1. apply Z.gtb_lt in X2. lia.
Qed.

(** C61 (whole array): a report has exactly one entry per joint ever heard of and one per controller still kept, each group
    in the order of the names; if there is no controller, one entry says so. *)
Theorem C61_one_entry_each nowarn h now : exists js cs,
  map ds_name (published nowarn h now) = map joint_label js ++ map ctrl_label cs ++ (match cs with [] => [no_controllers] | _ => [] end) /\
  sorted_names js /\ sorted_names cs /\
  (forall n, In n js <-> exists t m, In (Got t m) (about_joint n h)) /\
  (forall n, In n cs <-> kept (about_ctrl n h)).
Proof.
  exists (map fst (dn_joints (drun nowarn h))), (map fst (dn_ctrls (drun nowarn h))).
  destruct (drun_joints nowarn h) as [SJ GJ]. destruct (drun_ctrls nowarn h) as [SC GC].
  split; [|split; [exact SJ|split; [exact SC|split]]].
  - unfold published, publishDiag. cbn [fst]. rewrite !map_app, !map_map. cbn [fst snd]. f_equal; [|f_equal].
    + apply map_ext_in. intros [n d] HI. cbn [fst snd]. rewrite jreport_name.
      destruct (joint_entry _ _ _ _ HI) as [-> _]. reflexivity.
    + apply map_ext_in. intros [n d] HI. cbn [fst snd]. rewrite creport_name.
      destruct (ctrl_entry _ _ _ _ HI) as [-> _]. reflexivity.
    + destruct (dn_ctrls (drun nowarn h)) as [|[n d] l]; reflexivity.
  - intros n. rewrite <- jfold_some, <- GJ. split.
    + intros HI X. exact (sm_get_none _ _ X HI).
    + intros X. destruct (sm_get n (dn_joints (drun nowarn h))) as [d|] eqn:E; [|congruence].
      apply in_map_iff. exists (n, d). split; [reflexivity|apply sm_get_in, E].
  - intros n. rewrite <- (cfold_kept nowarn), <- GC. split.
    + intros HI X. exact (sm_get_none _ _ X HI).
    + intros X. destruct (sm_get n (dn_ctrls (drun nowarn h))) as [d|] eqn:E; [|congruence].
      apply in_map_iff. exists (n, d). split; [reflexivity|apply sm_get_in, E].
Qed.

Lemma find_joint nw h now n s : In s (published nw h now) -> ds_name s = joint_label n ->
  exists d, s = fst (jdiag_report now d) /\ fold_left jhear (about_joint n h) None = Some d.
Proof.
  unfold published, publishDiag. cbn [fst]. rewrite map_map. cbn [snd]. intros HI HN. apply in_app_or in HI as [HI|HI].
  - apply in_map_iff in HI as ([n' d] & E & HI). cbn [snd] in E. exists d. split; [auto|].
    destruct (joint_entry _ _ _ _ HI) as [E1 E2]. rewrite <- E, jreport_name in HN. apply joint_label_inj in HN. congruence.
  - exfalso. apply in_app_or in HI as [HI|HI].
    + apply in_map_iff in HI as ([n' d] & E & HI). rewrite <- E in HN. cbn [snd] in HN. rewrite creport_name in HN. discriminate HN.
    + rewrite map_length in HI. destruct (_ =? 0)%nat; [|destruct HI]. destruct HI as [<-|[]]. discriminate HN.
Qed.
Lemma find_ctrl nw h now n s : In s (published nw h now) -> ds_name s = ctrl_label n ->
  exists d, s = cdiag_report now d /\ fold_left (chear nw) (about_ctrl n h) None = Some d.
Proof.
  unfold published, publishDiag. cbn [fst]. rewrite map_map. cbn [snd]. intros HI HN. apply in_app_or in HI as [HI|HI].
  - exfalso. apply in_map_iff in HI as ([n' d] & E & HI). rewrite <- E in HN. cbn [snd] in HN. rewrite jreport_name in HN. discriminate HN.
  - apply in_app_or in HI as [HI|HI].
    + apply in_map_iff in HI as ([n' d] & E & HI). cbn [snd] in E. exists d. split; [auto|].
      destruct (ctrl_entry _ _ _ _ HI) as [E1 E2]. rewrite <- E, creport_name in HN. apply ctrl_label_inj in HN. congruence.
    + exfalso. rewrite map_length in HI. destruct (_ =? 0)%nat; [|destruct HI]. destruct HI as [<-|[]]. discriminate HN.
Qed.

Lemma report_values now d : ds_values (fst (jdiag_report now d)) =
  ([("Position", VDouble (jd_position d)); ("Velocity", VDouble (jd_velocity d));
       ("Measured Effort", VDouble (jd_measured d)); ("Commanded Effort", VDouble (jd_commanded d));
       ("Calibrated", VBool (jd_calibrated d)); ("Odometer", VDouble (jd_odometer d))]
      ++ (if jd_calibrated d
          then [("Max Position", VDouble (jd_maxpos d)); ("Min Position", VDouble (jd_minpos d));
                ("Max Abs. Velocity", VDouble (jd_maxvel d)); ("Max Abs. Effort", VDouble (jd_maxeff d))]
          else [("Max Position", VText "N/A"); ("Min Position", VText "N/A");
                ("Max Abs. Velocity", VText "N/A"); ("Max Abs. Effort", VText "N/A")])
      ++ [("Limits Hit", VBool (jd_limits d))])%list%string.
Proof. unfold jdiag_report. destruct (jd_calibrated d), (now - jd_time d >? 3000000000)%Z, (negb _ || _ || _ || _); reflexivity. Qed.

(** C61: the severity and the current values of a joint are those of the last message about it. *)
Theorem C61_joint_severity nowarn h now n s t m rs :
  In s (published nowarn h now) -> ds_name s = joint_label n -> last_got (about_joint n h) t m rs ->
  joint_verdict m (now - t) s /\ joint_values m s.
Proof.
  intros HI HN HL. destruct (find_joint _ _ _ _ _ HI HN) as (d & -> & E).
  destruct (jfold_last _ _ _ _ _ (about_joint_names n h) HL) as (d' & E' & HH & HT & _).
  rewrite E in E'. injection E' as <-. destruct HH as (P1 & P2 & P3 & P4 & P5 & P6 & P7).
  assert (AP : all_proper m <-> negb (is_valid (jd_position d)) || negb (is_valid (jd_velocity d))
                      || negb (is_valid (jd_measured d)) || negb (is_valid (jd_commanded d)) = false).
  { unfold all_proper. rewrite <- !is_valid_spec, P1, P2, P3, P4, !orb_false_iff, !negb_false_iff. tauto. }
  split.
  - unfold joint_verdict, jdiag_report. rewrite P5, HT.
    destruct (negb _ || _ || _ || _).
    + assert (NA : ~ all_proper m) by (intros X; apply AP in X; discriminate).
      split; [|split; [|split]]; intros X; try contradiction.
      destruct (jo_is_calibrated m), (now - t >? 3000000000)%Z; split; reflexivity.
    + assert (YA : all_proper m) by (apply AP; reflexivity).
      split; [intros X; contradiction|]. unfold stale.
      destruct (Z.gtb_spec (now - t) 3000000000); (split; [|split]); intros _ X; try lia;
      try (intros ->; split; reflexivity).
      destruct (jo_is_calibrated m); split; reflexivity.
  - unfold joint_values, shows. rewrite report_values, P1, P2, P3, P4, P5, P6, P7.
    destruct (jo_is_calibrated m); cbn; auto 20.
Qed.

Lemma window_last {A} (l : list (heard A)) w' m : window l (w' ++ [m]) -> exists t rs, last_got l t m rs.
Proof.
  intros (pre & ts & rs & -> & L & _ & _).
  assert (X : forall (w : list A) (ts : list Z), List.length ts = List.length (w ++ [m]) ->
            exists ts' t, combine ts (w ++ [m]) = combine ts' w ++ [(t, m)]).
  { clear. induction w as [|x w IH]; intros [|t ts] L; try discriminate L.
    - exists [], t. cbn. destruct ts; [reflexivity|discriminate L].
    - cbn in L. destruct (IH ts ltac:(lia)) as (ts' & t' & E). exists (t :: ts'), t'. cbn. rewrite E. reflexivity. }
  destruct (X _ _ L) as (ts' & t & E). exists t, rs. rewrite E, map_app. cbn.
  exists (pre ++ map (fun x => Got (fst x) (snd x)) (combine ts' w')). rewrite <- !app_assoc. reflexivity.
Qed.
(** C62: while the joint is calibrated, the maxima shown are those of the current window of messages. *)
Theorem C62_maxima nowarn h now n s w w' m :
  In s (published nowarn h now) -> ds_name s = joint_label n -> window (about_joint n h) w -> w = w' ++ [m] ->
  if jo_is_calibrated m then
    exists p v e, shows s "Max Position" (VDouble p) /\ shows s "Max Abs. Velocity" (VDouble v) /\ shows s "Max Abs. Effort" (VDouble e) /\
      is_max p (map (@jo_max_position B64) (filter (@jo_is_calibrated B64) w)) /\
      is_max v (map (@jo_max_abs_velocity B64) (filter (@jo_is_calibrated B64) w)) /\
      is_max e (map (@jo_max_abs_effort B64) (filter (@jo_is_calibrated B64) w))
  else shows s "Max Position" (VText "N/A") /\ shows s "Max Abs. Velocity" (VText "N/A") /\ shows s "Max Abs. Effort" (VText "N/A").
Proof.
  intros HI HN HW EW. destruct (find_joint _ _ _ _ _ HI HN) as (d & -> & E).
  pose proof HW as HW'. rewrite EW in HW'. destruct (window_last _ _ _ HW') as (t & rs & HL).
  destruct (jfold_last _ _ _ _ _ (about_joint_names n h) HL) as (d' & E' & HH & _). rewrite E in E'. injection E' as <-.
  destruct HH as (_ & _ & _ & _ & C & _).
  destruct (jfold_window _ _ _ (about_joint_names n h) HW) as (d' & E' & M1 & M2 & M3 & _). rewrite E in E'. injection E' as <-.
  unfold shows. rewrite report_values, C. destruct (jo_is_calibrated m).
  - exists (jd_maxpos d), (jd_maxvel d), (jd_maxeff d). rewrite M1, M2, M3. cbn.
    split; [auto 20|]. split; [auto 20|]. split; [auto 20|]. repeat (split; [apply wmax_is_max|]). apply wmax_is_max.
  - cbn. auto 20.
Qed.

(** C62: the minimum shown is that of the last message only (equal to it as a number), not that of the window, provided the
    last message is consistent (minimum not above maximum). *)
Theorem C62_minimum_is_last nowarn h now n s w w' m :
  In s (published nowarn h now) -> ds_name s = joint_label n -> window (about_joint n h) w -> w = w' ++ [m] ->
  jo_is_calibrated m = true -> fle (jo_min_position m) (jo_max_position m) ->
  exists v, shows s "Min Position" (VDouble v) /\ fle v (jo_min_position m) /\ fle (jo_min_position m) v.
Proof.
  intros HI HN HW EW HC HM. destruct (find_joint _ _ _ _ _ HI HN) as (d & -> & E).
  pose proof HW as HW'. rewrite EW in HW'. destruct (window_last _ _ _ HW') as (t & rs & HL).
  destruct (jfold_last _ _ _ _ _ (about_joint_names n h) HL) as (d' & E' & HH & _). rewrite E in E'. injection E' as <-.
  destruct HH as (_ & _ & _ & _ & C & _).
  destruct (jfold_window _ _ _ (about_joint_names n h) HW) as (d' & E' & M1 & _ & _ & M4). rewrite E in E'. injection E' as <-.
  unfold shows. rewrite report_values, C, HC. exists (jd_minpos d). split; [cbn; auto 20|].
  rewrite (M4 _ _ EW HC), M1.
  pose proof (wmax_is_max (@jo_max_position B64) w) as (_ & X & _).
  assert (NM : not_nan (jo_max_position m) /\ not_nan (jo_min_position m)).
  { revert HM. unfold fle, not_nan. destruct (jo_max_position m), (jo_min_position m); cbn; try discriminate; auto. }
  assert (Y : fle (jo_max_position m) (wmax (@jo_max_position B64) w (Bopp b64_max))).
  { apply X; [|apply NM]. apply in_map, filter_In. split; [|exact HC]. rewrite EW. apply in_or_app. cbn. auto. }
  destruct (nmin_small _ _ _ HM Y) as [-> |[A B]]; [|auto]. split; apply fle_refl, NM.
Qed.

(** C63: the severity and the values of a controller are those of the last message about it. *)
Theorem C63_controller_severity nowarn h now n s t m rs :
  In s (published nowarn h now) -> ds_name s = ctrl_label n -> last_got (about_ctrl n h) t m rs ->
  ctrl_verdict nowarn m now s /\ ctrl_values m s.
Proof.
  intros HI HN HL. destruct (find_ctrl _ _ _ _ _ HI HN) as (d & -> & E).
  destruct (cfold_last nowarn _ _ _ _ _ (about_ctrl_names n h) HL) as (d' & HH & E'). rewrite E in E'.
  destruct (existsb _ rs); [discriminate|]. injection E' as <-. destruct HH as (_ & _ & P1 & P2 & P3 & P4 & P5).
  unfold cdiag_report. rewrite P1, P2, P3, P4, P5. split.
  - unfold ctrl_verdict, recent. destruct nowarn; cbn [negb andb].
    + split; [intros _; destruct (cs_running m); split; reflexivity|]. repeat split; discriminate.
    + destruct (Nat.ltb_spec 0 (cs_overruns m)) as [L|L].
      * split; [intros [X|X]; [discriminate|lia]|].
        destruct (Z.ltb_spec (now - cs_last_overrun m) 30000000000), (cs_running m); cbn;
        (split; [|split]); intros; try reflexivity; lia.
      * split; [intros _; destruct (cs_running m); split; reflexivity|]. repeat split; intros; lia.
  - unfold ctrl_values. destruct (negb nowarn && _), (cs_running m), (now - cs_last_overrun m <? 30000000000)%Z; reflexivity.
Qed.

(** C63: which controllers are listed: those heard of and not found older than three seconds by an earlier report.  In
    particular a controller is listed once more by the report that finds it stale, and by none after it. *)
Theorem C63_listed nowarn h now n :
  (exists s, In s (published nowarn h now) /\ ds_name s = ctrl_label n) <-> kept (about_ctrl n h).
Proof.
  destruct (C61_one_entry_each nowarn h now) as (js & cs & E & _ & _ & _ & K). rewrite <- K. split.
  - intros (s & HI & HN). assert (X : In (ctrl_label n) (map ds_name (published nowarn h now))) by (rewrite <- HN; apply in_map, HI).
    rewrite E in X. apply in_app_or in X as [X|X].
    + apply in_map_iff in X as (j & X & _). discriminate X.
    + apply in_app_or in X as [X|X].
      * apply in_map_iff in X as (j & X & Y). apply ctrl_label_inj in X. subst. exact Y.
      * destruct cs; [|destruct X]. destruct X as [X|[]]. discriminate X.
  - intros HI. assert (X : In (ctrl_label n) (map ds_name (published nowarn h now))).
    { rewrite E. apply in_or_app. right. apply in_or_app. left. apply in_map, HI. }
    apply in_map_iff in X as (s & X & Y). eauto.
Qed.

(** ** A concrete history: joint "j" calibrated, two messages between reports, then silence; controller "c" with a recent
    overrun. *)
Definition b (k : Z) : B64 := nofZ k.
Definition ex_j (lo hi : Z) : jstat B64 :=
  mkJstat 0 "j" (b hi) (b 0) (b 0) (b 0) true false (b 0) (b lo) (b hi) (b 1) (b 2).
Definition ex_c : cstat := mkCstat "c" 0 true [1000%Z] 1 5.
Definition ex_h : list dev := [DMsg 10 [ex_j (-3) 4] [ex_c]; DMsg 20 [ex_j (-1) 2] []].

(** C62: in this history the minimum shown is above -3 although -3 was reported in the same window. *)
Theorem C62_minimum_lost : exists s v,
  In s (published false ex_h 30) /\ ds_name s = joint_label "j" /\ shows s "Min Position" (VDouble v) /\
  window (about_joint "j" ex_h) [ex_j (-3) 4; ex_j (-1) 2] /\ jo_min_position (ex_j (-3) 4) = b (-3) /\ flt (b (-3)) v.
Proof.
  assert (W : window (about_joint "j" ex_h) [ex_j (-3) 4; ex_j (-1) 2]).
  { exists [], [10%Z; 20%Z], []. repeat split; [discriminate|left; reflexivity]. }
  destruct (C61_one_entry_each false ex_h 30) as (js & cs & E & _ & _ & J & _).
  assert (X : In (joint_label "j") (map ds_name (published false ex_h 30))).
  { rewrite E. apply in_or_app. left. apply in_map, J. exists 10%Z, (ex_j (-3) 4). left. reflexivity. }
  apply in_map_iff in X as (s & X & Y). exists s.
  assert (F : fle (b (-1)) (b 2)) by (unfold fle; vm_compute; reflexivity).
  destruct (C62_minimum_is_last false ex_h 30 "j" s _ [ex_j (-3) 4] (ex_j (-1) 2) Y X W eq_refl eq_refl F) as (v & S1 & S2 & S3).
  exists v. split; [exact Y|]. split; [exact X|]. split; [exact S1|]. split; [exact W|]. split; [reflexivity|].
  assert (G : flt (b (-3)) (b (-1))) by (unfold flt; vm_compute; reflexivity).
  cbn [ex_j jo_min_position] in S3. clear - G S3. revert G S3. unfold flt, fle. rewrite !b64_ltb_ord, b64_leb_ord.
  destruct (b64_ord (b (-3))), (b64_ord (b (-1))), (b64_ord v); try discriminate.
  case Rlt_bool_spec; [|discriminate]. case Rle_bool_spec; [|discriminate]. intros. apply Rlt_bool_true. lra.
Qed.

(** C61, C63: the same history reported after one second, after four seconds (once more) and after five (gone). *)
Example C63_ex :
  map (fun s => (ds_name s, ds_level s, ds_message s)) (published false ex_h 1000000000) =
    [(joint_label "j", OK, "OK"); (ctrl_label "c", WARN, broke)]%string /\
  map (fun s => (ds_name s, ds_level s, ds_message s)) (published false ex_h 4000000000) =
    [(joint_label "j", ERROR, "No updates"); (ctrl_label "c", WARN, broke)]%string /\
  map (fun s => (ds_name s, ds_level s, ds_message s)) (published false (ex_h ++ [DReport 4000000000]) 5000000000) =
    [(joint_label "j", ERROR, "No updates"); (no_controllers, OK, "")]%string /\
  kept (about_ctrl "c" ex_h) /\ ~ kept (about_ctrl "c" (ex_h ++ [DReport 4000000000])).
Proof.
  split; [vm_compute; reflexivity|]. split; [vm_compute; reflexivity|]. split; [vm_compute; reflexivity|].
  split.
  - exists 10%Z, ex_c, []. split; [exists []; reflexivity|constructor].
  - rewrite <- (C63_listed false _ 0). intros (s & HI & HN).
    assert (X : In (ctrl_label "c") (map ds_name (published false (ex_h ++ [DReport 4000000000]) 0))) by (rewrite <- HN; apply in_map, HI).
    vm_compute in X. repeat (destruct X as [X|X]; [discriminate X|]). exact X.
Qed.
(** C61: the other severities: a NaN position, the smallest positive number (not a normal number), an uncalibrated joint. *)
Definition ex_p (x : B64) (c : bool) : list dev := [DMsg 10 [mkJstat 0 "j" x (b 0) (b 0) (b 0) c false (b 0) (b 0) (b 0) (b 0) (b 0)] []].
Example C61_ex :
  map (fun s => (ds_level s, ds_message s)) (firstn 1 (published false (ex_p B754_nan true) 20)) = [(ERROR, "NaN Values in Joint State")]%string /\
  map (fun s => (ds_level s, ds_message s)) (firstn 1 (published false (ex_p (@B754_finite 53 1024 false 1 (-1074) eq_refl) true) 20)) =
    [(ERROR, "NaN Values in Joint State")]%string /\
  map (fun s => (ds_level s, ds_message s)) (firstn 1 (published false (ex_p (b 1) false) 20)) = [(WARN, "Uncalibrated")]%string /\
  last_got (about_joint "j" (ex_p (b 1) false)) 10 (mkJstat 0 "j" (b 1) (b 0) (b 0) (b 0) false false (b 0) (b 0) (b 0) (b 0) (b 0)) [].
Proof. split; [vm_compute; reflexivity|]. split; [vm_compute; reflexivity|]. split; [vm_compute; reflexivity|]. exists []. reflexivity. Qed.
