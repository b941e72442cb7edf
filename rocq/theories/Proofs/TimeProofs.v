(** The accumulators compute maximum, mean and standard deviation. *)
From Coq Require Import List ZArith Reals Lia Lra.
From Flocq Require Import Core.
From Verif.Model Require Import Base Num Transmission Controller Manager TimeStats.
From Verif.Spec Require Import TimeSpec.
Import ListNotations.
Local Open Scope R_scope.

Lemma total_cons x l : total (x :: l) = x + total l.
Proof. reflexivity. Qed.
Lemma total_app l1 l2 : total (l1 ++ l2) = total l1 + total l2.
Proof. induction l1 as [|x l IH]; [cbn [app]; change (total []) with 0; lra|]. cbn [app]. rewrite !total_cons, IH. lra. Qed.

(** Σ (x - c)² = Σ x² - 2 c Σ x + n c² *)
Lemma squares c l : total (map (fun x => (x - c) * (x - c)) l) =
  total (map (fun x => x * x) l) - 2 * c * total l + INR (List.length l) * (c * c).
Proof.
  induction l as [|x l IH]; [cbn; lra|]. cbn [map List.length]. rewrite S_INR, !total_cons, IH. lra.
Qed.

Definition acc_of (l : list R) : timeacc R := fold_left ta_add l new_timeacc.
Lemma acc_snoc l x : acc_of (l ++ [x]) = ta_add (acc_of l) x.
Proof. unfold acc_of. rewrite fold_left_app. reflexivity. Qed.

Lemma acc_count l : ta_count (acc_of l) = Z.of_nat (List.length l).
Proof.
  induction l as [|x l IH] using rev_ind; [reflexivity|]. rewrite acc_snoc, app_length. cbn [ta_add ta_count List.length]. rewrite IH. lia.
Qed.
Lemma acc_sum l : ta_sum (acc_of l) = total l.
Proof.
  induction l as [|x l IH] using rev_ind; [reflexivity|]. rewrite acc_snoc, total_app. cbn [ta_add ta_sum]. rewrite IH, total_cons. cbn [nadd num_R]. change (total []) with 0. lra.
Qed.
Lemma acc_max l : ta_max (acc_of l) = - (IZR 9007199254740991 * bpow radix2 971) \/ In (ta_max (acc_of l)) l.
Proof.
  induction l as [|x l IH] using rev_ind; [left; reflexivity|]. rewrite acc_snoc. cbn [ta_add ta_max]. cbn [nltb num_R].
  destruct (Rlt_bool (ta_max (acc_of l)) x); [right; apply in_or_app; right; left; reflexivity|].
  destruct IH as [IH|IH]; [left; exact IH|right; apply in_or_app; left; exact IH].
Qed.
Lemma acc_max_ge l x : In x l -> x <= ta_max (acc_of l).
Proof.
  induction l as [|y l IH] using rev_ind; [intros []|]. rewrite acc_snoc. cbn [ta_add ta_max]. cbn [nltb num_R]. intros X.
  apply in_app_or in X. destruct (Rlt_bool_spec (ta_max (acc_of l)) y) as [L|L]; destruct X as [X|[<-|[]]]; try lra.
  - specialize (IH X). lra.
  - auto.
Qed.
Lemma acc_low l : - (IZR 9007199254740991 * bpow radix2 971) <= ta_max (acc_of l).
Proof.
  induction l as [|y l IH] using rev_ind; [apply Rle_refl|]. rewrite acc_snoc. cbn [ta_add ta_max]. cbn [nltb num_R].
  destruct (Rlt_bool_spec (ta_max (acc_of l)) y) as [L|L]; lra.
Qed.

Lemma acc_mean l : l <> [] -> ta_mean (acc_of l) * INR (List.length l) = total l.
Proof.
  induction l as [|x l IH] using rev_ind; [congruence|]. intros _. rewrite acc_snoc, total_app, app_length. cbn [ta_add ta_mean].
  rewrite acc_count. replace (Z.of_nat (List.length l) + 1 - 1)%Z with (Z.of_nat (List.length l)) by lia.
  replace (Z.of_nat (List.length l) + 1)%Z with (Z.of_nat (List.length l + List.length [x])) by (cbn; lia).
  cbn [ndiv nmul nadd nofZ num_R]. rewrite <- !INR_IZR_INZ.
  assert (P : 0 < INR (List.length l + List.length [x])) by (apply lt_0_INR; cbn; lia).
  destruct l as [|y l]; [cbn; lra|]. rewrite (IH ltac:(discriminate)). cbn [total fold_right]. field. lra.
Qed.
Lemma acc_var l : l <> [] -> ta_var (acc_of l) * INR (List.length l) = total (map (fun x => (x - average l) * (x - average l)) l).
Proof.
  induction l as [|x l IH] using rev_ind; [congruence|]. intros _.
  pose proof (acc_mean (l ++ [x]) ltac:(destruct l; discriminate)) as M.
  assert (Pn : 0 < INR (List.length (l ++ [x]))) by (apply lt_0_INR; rewrite app_length; cbn; lia).
  assert (A : ta_mean (acc_of (l ++ [x])) = average (l ++ [x])).
  { unfold average. rewrite <- M. field. lra. }
  rewrite acc_snoc. cbn [ta_add ta_var]. 
  change ((ta_mean (acc_of l) * nofZ (ta_count (acc_of l) + 1 - 1) + x) / nofZ (ta_count (acc_of l) + 1))%num with (ta_mean (ta_add (acc_of l) x)).
  rewrite <- acc_snoc, A, acc_count.
  destruct l as [|y l'].
  { cbn [List.length Z.of_nat]. cbn. unfold average; cbn. lra. }
  set (l := y :: l') in *.
  assert (NE : l <> []) by discriminate. specialize (IH NE).
  assert (Pm : 0 < INR (List.length l)) by (apply lt_0_INR; cbn; lia).
  replace (1 <? Z.of_nat (List.length l) + 1)%Z with true by (symmetry; apply Z.ltb_lt; cbn [List.length l]; lia).
  replace (Z.of_nat (List.length l) + 1 - 1)%Z with (Z.of_nat (List.length l)) by lia.
  replace (Z.of_nat (List.length l) + 1)%Z with (Z.of_nat (List.length (l ++ [x]))) by (rewrite app_length; cbn; lia).
  cbn [ndiv nmul nadd nsub nofZ num_R]. rewrite <- !INR_IZR_INZ.
  rewrite squares in IH. rewrite squares. rewrite map_app, !total_app. cbn [map total fold_right].
  unfold average in *. rewrite total_app in *. cbn [total fold_right] in *.
  rewrite app_length in *. cbn [List.length] in *. rewrite plus_INR in *. cbn [INR] in *.
  set (n := INR (List.length l)) in *. set (s := total l) in *. set (q := total (map (fun x0 => x0 * x0) l)) in *.
  assert (V : ta_var (acc_of l) = (q - 2 * (s / n) * s + n * (s / n * (s / n))) / n).
  { rewrite <- IH. field. lra. }
  rewrite V. field. lra.
Qed.

Lemma accumulated_of ds : accumulated ds = acc_of (map ntosec ds).
Proof.
  unfold accumulated, acc_of. generalize (@new_timeacc R _). induction ds as [|d ds IH]; intros a; [reflexivity|]. cbn. apply IH.
Qed.
Lemma ntosec_seconds d : ntosec d = seconds d.
Proof.
  unfold ntosec, ndec, seconds. cbn [nadd nmul ndiv nofZ num_R].
  assert (E : IZR d = IZR (d / 1000000000) * 1000000000 + IZR (d mod 1000000000)).
  { rewrite <- mult_IZR, <- plus_IZR. f_equal. rewrite Z.mul_comm. apply Z.div_mod. lia. }
  rewrite E. change (10 ^ 9)%Z with 1000000000%Z. field.
Qed.
Lemma seconds_above d : representable d -> - (IZR 9007199254740991 * bpow radix2 971) < seconds d.
Proof.
  intros Rp. unfold representable, seconds in *.
  assert (B : IZR d >= - (2147483648 * 1000000000)).
  { apply Rle_ge. rewrite <- mult_IZR, <- opp_IZR. apply IZR_le. lia. }
  assert (P : 1 <= bpow radix2 971) by (change 1 with (bpow radix2 0); apply bpow_le; lia).
  assert (P2 : IZR 9007199254740991 * 1 <= IZR 9007199254740991 * bpow radix2 971) by (apply Rmult_le_compat_l; [apply IZR_le; lia|exact P]).
  lra.
Qed.
