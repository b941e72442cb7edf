From Coq Require Import List String Arith Lia Relations.Relation_Operators Sorting.Permutation.
From Verif.Model Require Import Scheduler.
From Verif.Spec Require Import SchedulerSpec.
Import ListNotations.

(** Topological sorting: a finite relation either has an admissible order or a cycle. *)
Section Topo.
Notation A := string.
Variable R : A -> A -> Prop.
Variable Rd : forall x y, {R x y} + {~ R x y}.

Lemma ex_dec (l : list A) x : {y | In y l /\ R y x} + {forall y, In y l -> ~ R y x}.
Proof.
  induction l as [|a l IH]; [right; intros y []|]. destruct (Rd a x) as [r|n]; [left; exists a; cbn; auto|].
  destruct IH as [(y & I & r)|N]; [left; exists y; cbn; auto|]. right. intros y [<-|I]; auto.
Qed.
Lemma min_dec (all l : list A) : {x | In x l /\ forall y, In y all -> ~ R y x} + {forall x, In x l -> exists y, In y all /\ R y x}.
Proof.
  induction l as [|a l IH]; [right; intros x []|]. destruct (ex_dec all a) as [(y & I & r)|N]; [|left; exists a; cbn; auto].
  destruct IH as [(x & I' & M)|N]; [left; exists x; cbn; auto|]. right. intros x [<-|I']; eauto.
Qed.
Lemma chain (l : list A) : (forall x, In x l -> exists y, In y l /\ R y x) -> forall x0, In x0 l ->
  forall n, exists h ch, List.length ch = n /\ incl (h :: ch) l /\ ForallOrdPairs (fun a b => clos_trans A R a b) (h :: ch).
Proof.
  intros P x0 I0. induction n as [|n (h & ch & L & I & F)].
  - exists x0, []. split; [reflexivity|]. split; [intros y [<-|[]]; auto|]. constructor; constructor.
  - destruct (P h) as (y & Iy & r); [apply I; cbn; auto|]. exists y, (h :: ch). split; [cbn; congruence|].
    split; [intros z [<-|Iz]; auto|]. constructor; [|exact F]. inversion F as [|? ? FH FT]; subst.
    constructor; [apply t_step; exact r|]. eapply Forall_impl; [|exact FH]. intros z tz. eapply t_trans; [apply t_step; exact r|exact tz].
Qed.
Lemma dup_cycle (ch : list A) : ForallOrdPairs (fun a b => clos_trans A R a b) ch -> ~ NoDup ch -> exists x, In x ch /\ clos_trans A R x x.
Proof.
  induction 1 as [|a ch FH F IH]; intros N; [destruct N; constructor|].
  destruct (in_dec string_dec a ch) as [I|NI]; [exists a; split; [cbn; auto|]; rewrite Forall_forall in FH; auto|].
  destruct IH as (x & I & t); [intros ND; apply N; constructor; auto|]. exists x. cbn. auto.
Qed.
Lemma topo : forall n l, List.length l = n -> NoDup l ->
  (exists o, Permutation o l /\ forall x y, In x l -> In y l -> R x y -> comes_before o x y) \/ (exists x, In x l /\ clos_trans A R x x).
Proof.
  induction n as [|n IH]; intros l L ND.
  { destruct l; [|discriminate]. left. exists []. split; [constructor|]. intros x y []. }
  destruct (min_dec l l) as [(x & I & M)|P].
  - destruct (in_split x l I) as (l1 & l2 & ->).
    assert (ND' : NoDup (l1 ++ l2)) by (eapply NoDup_remove_1; exact ND).
    destruct (IH (l1 ++ l2)) as [(o & PO & C)|(y & Iy & t)]; [rewrite app_length in *; cbn in L; lia|exact ND'| |].
    + left. exists (x :: o). split; [apply Permutation_cons_app; exact PO|]. intros a b Ia Ib r.
      destruct (string_dec b x) as [->|NB]; [destruct (M a Ia r)|].
      assert (Ib' : In b (l1 ++ l2)) by (apply in_app_iff in Ib; cbn in Ib; apply in_app_iff; destruct Ib as [Q|[Q|Q]]; auto; congruence).
      destruct (string_dec a x) as [->|NA].
      * apply (Permutation_in b (Permutation_sym PO)) in Ib'. apply In_nth_error in Ib' as (j & E). exists 0, (S j). split; [lia|]. auto.
      * assert (Ia' : In a (l1 ++ l2)) by (apply in_app_iff in Ia; cbn in Ia; apply in_app_iff; destruct Ia as [Q|[Q|Q]]; auto; congruence).
        destruct (C a b Ia' Ib' r) as (i & j & LT & E1 & E2). exists (S i), (S j). split; [lia|]. auto.
    + right. exists y. split; [|exact t]. apply in_app_iff in Iy. apply in_app_iff. cbn. tauto.
  - right. destruct l as [|x0 l0]; [discriminate|]. set (l := x0 :: l0) in *.
    destruct (chain l P x0 (or_introl eq_refl) (List.length l)) as (h & ch & LC & I & F).
    destruct (dup_cycle (h :: ch) F) as (x & Ix & t); [|exists x; split; [apply I, Ix|exact t]].
    intros N. pose proof (NoDup_incl_length N I). cbn [List.length] in *. lia.
Qed.
End Topo.

Lemma must_precede_dec c x y : {must_precede c x y} + {~ must_precede c x y}.
Proof.
  assert (D : forall (f : spec -> bool), {exists s, In s c /\ f s = true} + {~ exists s, In s c /\ f s = true}).
  { intros f. destruct (existsb f c) eqn:E; [left; apply existsb_exists; exact E|right; intros X; apply existsb_exists in X; congruence]. }
  destruct (D (fun s => if string_dec (sp_name s) y then if in_dec string_dec x (sp_before s) then true else false else false)) as [X|N].
  { left. left. destruct X as (s & I & E). exists s. destruct (string_dec (sp_name s) y); [|discriminate]. destruct (in_dec string_dec x (sp_before s)); [|discriminate]. auto. }
  destruct (D (fun s => if string_dec (sp_name s) x then if in_dec string_dec y (sp_after s) then true else false else false)) as [X|N'].
  { left. right. destruct X as (s & I & E). exists s. destruct (string_dec (sp_name s) x); [|discriminate]. destruct (in_dec string_dec y (sp_after s)); [|discriminate]. auto. }
  right. intros [(s & I & E & Q)|(s & I & E & Q)]; [apply N|apply N']; exists s; split; auto.
  - destruct (string_dec (sp_name s) y); [|contradiction]. destruct (in_dec string_dec x (sp_before s)); auto.
  - destruct (string_dec (sp_name s) x); [|contradiction]. destruct (in_dec string_dec y (sp_after s)); auto.
Qed.

Lemma admissible_or_cycle c : NoDup (names c) -> (forall x y, must_precede c x y -> In x (names c) /\ In y (names c)) ->
  (exists o, admissible c o) \/ (exists x, In x (names c) /\ clos_trans string (must_precede c) x x).
Proof.
  intros ND A. destruct (topo (must_precede c) (must_precede_dec c) _ (names c) eq_refl ND) as [(o & P & C)|X]; [left|right; exact X].
  exists o. split; [exact P|]. intros x y r. destruct (A x y r). auto.
Qed.
