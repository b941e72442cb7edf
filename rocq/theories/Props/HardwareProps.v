(** C58: the hardware registry over every registration history. *)
From Coq Require Import List String Bool Arith Lia.
From Verif.Model Require Import Base Num Hardware.
From Verif.Spec Require Import HardwareSpec.
Import ListNotations.

(** keys strictly increasing *)
Fixpoint sorted_keys (m : cmap) : Prop :=
  match m with
  | [] => True
  | (k, _) :: m' => (forall k' p, In (k', p) m' -> String.compare k k' = Lt) /\ sorted_keys m'
  end.

Lemma compare_eq a b : String.compare a b = Eq <-> a = b.
Proof.
  split; [apply String.compare_eq_iff|intros ->]. pose proof (String.compare_antisym b b) as H.
  destruct (String.compare b b); auto; discriminate.
Qed.
Lemma compare_gt a b : String.compare a b = Gt -> String.compare b a = Lt.
Proof. intros H. rewrite String.compare_antisym, H. reflexivity. Qed.
Lemma ascii_lt_trans a b c : Ascii.compare a b = Lt -> Ascii.compare b c = Lt -> Ascii.compare a c = Lt.
Proof. unfold Ascii.compare. rewrite !BinNat.N.compare_lt_iff. apply BinNat.N.lt_trans. Qed.
Lemma compare_lt_trans : forall a b c, String.compare a b = Lt -> String.compare b c = Lt -> String.compare a c = Lt.
Proof.
  induction a as [|x a IH]; intros [|y b] [|z c]; simpl; try discriminate; auto.
  destruct (Ascii.compare x y) eqn:E1; try discriminate.
  - apply Ascii.compare_eq_iff in E1. subst y. destruct (Ascii.compare x z); auto; try discriminate. apply IH.
  - intros _. destruct (Ascii.compare y z) eqn:E2; try discriminate.
    + apply Ascii.compare_eq_iff in E2. subst z. rewrite E1. auto.
    + rewrite (ascii_lt_trans _ _ _ E1 E2). auto.
Qed.

Lemma insert_keys n p m m' b : map_insert n p m = (m', b) -> forall k q, In (k, q) m' -> In (k, q) m \/ k = n.
Proof.
  revert m' b. induction m as [|[k0 q0] m IH]; simpl; intros m' b.
  - intros [= <- <-] k q [[= <- <-]|[]]. auto.
  - destruct (String.compare n k0).
    + intros [= <- <-] k q H. auto.
    + intros [= <- <-] k q [[= <- <-]|H]; auto.
    + destruct (map_insert n p m) as [r b'] eqn:E. intros [= <- <-] k q [[= <- <-]|H]; auto.
      destruct (IH _ _ eq_refl _ _ H); auto.
Qed.

Lemma insert_sorted n p m m' b : sorted_keys m -> map_insert n p m = (m', b) -> sorted_keys m'.
Proof.
  revert m' b. induction m as [|[k0 q0] m IH]; simpl; intros m' b.
  - intros _ [= <- <-]. simpl. split; auto. intros ? ? [].
  - intros [H1 H2]. destruct (String.compare n k0) eqn:C.
    + intros [= <- <-]. simpl. auto.
    + intros [= <- <-]. simpl. split; [|auto]. intros k' p' [[= <- <-]|H]; auto.
      eapply compare_lt_trans; eauto.
    + destruct (map_insert n p m) as [r b'] eqn:E. intros [= <- <-]. simpl. split; [|eapply IH; eauto].
      intros k' p' H. destruct (insert_keys _ _ _ _ _ E _ _ H) as [Hi|Hi]; [eauto|subst; apply compare_gt; auto].
Qed.

Lemma get_in m n p : map_get m n = Some p -> In (n, p) m.
Proof.
  induction m as [|[k q] m IH]; simpl; [discriminate|].
  destruct (String.eqb_spec k n) as [->|]; [intros [= ->]; auto|auto].
Qed.

Lemma insert_get n p m m' b : sorted_keys m -> map_insert n p m = (m', b) ->
  (b = true <-> map_get m n = None) /\
  (forall n', map_get m' n' = if String.eqb n n' then match map_get m n with Some q => Some q | None => Some p end else map_get m n').
Proof.
  revert m' b. induction m as [|[k0 q0] m IH]; simpl; intros m' b.
  - intros _ [= <- <-]. split; [split; auto|]. intros n'. simpl. destruct (String.eqb_spec n n'); auto.
  - intros [H1 H2]. destruct (String.compare n k0) eqn:C.
    + apply compare_eq in C. subst k0. intros [= <- <-]. rewrite String.eqb_refl. split; [split; discriminate|].
      intros n'. simpl. destruct (String.eqb_spec n n'); auto.
    + intros [= <- <-].
      assert (Hn : map_get m n = None).
      { destruct (map_get m n) eqn:E; auto. apply get_in in E. specialize (H1 _ _ E).
        rewrite String.compare_antisym, C in H1. discriminate. }
      assert (Hk : k0 <> n). { intros ->. rewrite (proj2 (compare_eq n n) eq_refl) in C. discriminate. }
      destruct (String.eqb_spec k0 n); [contradiction|]. rewrite Hn. split; [split; auto|].
      intros n'. simpl. destruct (String.eqb_spec n n'); auto.
    + destruct (map_insert n p m) as [r b'] eqn:E. intros [= <- <-]. destruct (IH _ _ H2 eq_refl) as [I1 I2].
      assert (Hk : k0 <> n). { intros ->. rewrite (proj2 (compare_eq n n) eq_refl) in C. discriminate. }
      destruct (String.eqb_spec k0 n); [contradiction|]. split; [exact I1|].
      intros n'. simpl. rewrite I2. destruct (String.eqb_spec k0 n'), (String.eqb_spec n n'); subst; auto; contradiction.
Qed.

Definition cmap_of (k : ckind) : hwif -> cmap :=
  match k with
  | KActuator => actuators | KPressureSensor => pressure_sensors | KAccelerometer => accelerometers
  | KForceTorque => ft_sensors | KDigitalOut => digital_outs | KProjector => projectors
  | KAnalogIn => analog_ins | KCustomHW => custom_hws
  end.

Lemma add_maps k n p h h' b : add k n p h = (h', b) ->
  map_insert n p (cmap_of k h) = (cmap_of k h', b) /\ (forall k', k' <> k -> cmap_of k' h' = cmap_of k' h) /\ current_time h' = current_time h.
Proof.
  destruct k; cbn [add]; unfold addActuator, addPressureSensor, addAccelerometer, addForceTorque, addDigitalOut,
    addProjector, addAnalogIn, addCustomHW; cbn [cmap_of];
    match goal with |- context [map_insert n p ?m] => destruct (map_insert n p m) as [r b'] eqn:E end;
    intros [= <- <-]; simpl; (split; [reflexivity|]); split; auto; intros k' Hk; destruct k'; try reflexivity; contradiction.
Qed.
Lemma get_map k h n : get k h n = map_get (cmap_of k h) n.
Proof. destruct k; reflexivity. Qed.

Definition hw_ok (h : hwif) : Prop := forall k, sorted_keys (cmap_of k h).

Lemma registers_ok h l h' : registers h l h' -> hw_ok h -> hw_ok h'.
Proof.
  induction 1 as [h|h k n p h1 b l h2 A _ IH]; auto. intros O. apply IH. intros k'.
  destruct (add_maps _ _ _ _ _ _ A) as [M [F _]]. destruct (ckind_eq_dec k' k) as [->|Hk].
  - eapply insert_sorted; [apply O|exact M].
  - rewrite F; auto.
Qed.

Lemma registers_split h l1 l2 h' : registers h (l1 ++ l2) h' -> exists hm, registers h l1 hm /\ registers hm l2 h'.
Proof.
  revert h. induction l1 as [|r l1 IH]; simpl; intros h H.
  - exists h. split; [constructor|auto].
  - inversion H as [|h0 k n p h1 b l0 h2 A B]; subst. destruct (IH _ B) as [hm [X Y]]. exists hm. split; auto.
    econstructor; eauto.
Qed.

Lemma registers_get h l h' : registers h l h' -> hw_ok h -> forall k n,
  match get k h n with
  | Some p => get k h' n = Some p
  | None => match get k h' n with Some p => first_request l k n p | None => forall r, In r l -> ~ (r_kind r = k /\ r_name r = n) end
  end.
Proof.
  induction 1 as [h|h k0 n0 p0 h1 b l h2 A R IH]; intros O k n.
  - destruct (get k h n); auto.
  - destruct (add_maps _ _ _ _ _ _ A) as [M [F _]]. destruct (insert_get _ _ _ _ _ (O k0) M) as [_ Gm].
    assert (O1 : hw_ok h1).
    { intros k'. destruct (ckind_eq_dec k' k0) as [->|Hk]; [eapply insert_sorted; [apply O|exact M]|rewrite F; auto]. }
    specialize (IH O1 k n).
    assert (G1 : get k h1 n = if ckind_eq_dec k k0 then if String.eqb n0 n then match get k h n with Some q => Some q | None => Some p0 end else get k h n else get k h n).
    { destruct (ckind_eq_dec k k0) as [->|Hk]; rewrite !get_map.
      - rewrite Gm. destruct (String.eqb_spec n0 n) as [->|]; auto.
      - rewrite F; auto. }
    destruct (ckind_eq_dec k k0) as [->|Hk].
    + destruct (String.eqb_spec n0 n) as [->|Hn].
      * rewrite G1 in IH. destruct (get k0 h n) eqn:E; [auto|]. rewrite IH.
        exists [], b, l. split; [reflexivity|intros ? []].
      * rewrite G1 in IH. destruct (get k0 h n); [auto|]. destruct (get k0 h2 n) eqn:E2.
        -- destruct IH as [l1 [b' [l2 [-> HI]]]]. exists (Reg k0 n0 p0 b :: l1), b', l2. split; auto.
           intros r [<-|Hr]; [simpl; intros [_ ?]; contradiction|auto].
        -- intros r [<-|Hr]; [simpl; intros [_ ?]; contradiction|auto].
    + rewrite G1 in IH. destruct (get k h n); [auto|]. destruct (get k h2 n) eqn:E2.
      * destruct IH as [l1 [b' [l2 [-> HI]]]]. exists (Reg k0 n0 p0 b :: l1), b', l2. split; auto.
        intros r [<-|Hr]; [simpl; intros [? _]; congruence|auto].
      * intros r [<-|Hr]; [simpl; intros [? _]; congruence|auto].
Qed.

Lemma new_ok : hw_ok new_hwif.
Proof. intros k. destruct k; simpl; auto. Qed.

(** C58: after any registration history on a fresh interface, looking a name up yields the component of the first
    request made under that kind and name (so a later request never replaces it), and NULL iff there was none. *)
Theorem C58_lookup : forall l h, registers new_hwif l h -> forall k n,
  (forall p, get k h n = Some p <-> first_request l k n p) /\
  (get k h n = None <-> forall r, In r l -> ~ (r_kind r = k /\ r_name r = n)).
Proof.
  intros l h R k n. pose proof (registers_get _ _ _ R new_ok k n) as Q.
  assert (E : get k new_hwif n = None) by (destruct k; reflexivity). rewrite E in Q.
  assert (NF : (forall r, In r l -> ~ (r_kind r = k /\ r_name r = n)) -> forall p, ~ first_request l k n p).
  { intros Hn p [l1 [b [l2 [-> _]]]]. apply (Hn (Reg k n p b)); [apply in_or_app; simpl; auto|auto]. }
  assert (FU : forall p q, first_request l k n p -> first_request l k n q -> p = q).
  { clear. intros p q [l1 [b [l2 [E1 H1]]]] [l3 [b' [l4 [E2 H2]]]]. rewrite E1 in E2. clear E1 l.
    revert l3 H2 E2. induction l1 as [|r l1 IH]; intros [|r' l3] H2 E2; simpl in E2; injection E2.
    - intros _ _ ->. reflexivity.
    - intros _ <-. exfalso. apply (H2 (Reg k n p b)); simpl; auto.
    - intros _ ->. exfalso. apply (H1 (Reg k n q b')); simpl; auto.
    - intros E3 ->. apply (IH (fun r Hr => H1 r (or_intror Hr)) l3 (fun r Hr => H2 r (or_intror Hr)) E3). }
  destruct (get k h n) as [p|]; split.
  - intros p'. split; [intros [= <-]; auto|intros F; f_equal; eauto].
  - split; [discriminate|]. intros Hn. exfalso. eapply NF; eauto.
  - intros p. split; [discriminate|]. intros F. exfalso. eapply NF; eauto.
  - tauto.
Qed.

(** A request is granted iff no earlier request named the same component, and changes no other lookup. *)
Theorem C58_answer : forall l k n p b l2 h, registers new_hwif (l ++ Reg k n p b :: l2) h ->
  (b = true <-> forall r, In r l -> ~ (r_kind r = k /\ r_name r = n)).
Proof.
  intros l k n p b l2 h R. apply registers_split in R. destruct R as [hm [R1 R2]].
  inversion R2 as [|h0 k0 n0 p0 h1 b0 l0 h2 A B]; subst.
  destruct (add_maps _ _ _ _ _ _ A) as [M _].
  destruct (insert_get _ _ _ _ _ (registers_ok _ _ _ R1 new_ok k) M) as [Q _].
  rewrite Q. rewrite <- get_map. apply (proj2 (C58_lookup _ _ R1 k n)).
Qed.

Theorem C58_other_lookups : forall l h k n p h' b, registers new_hwif l h -> add k n p h = (h', b) ->
  forall k' n', (k', n') <> (k, n) -> get k' h' n' = get k' h n'.
Proof.
  intros l h k n p h' b R A k' n' Hd. destruct (add_maps _ _ _ _ _ _ A) as [M [F _]]. rewrite !get_map.
  destruct (ckind_eq_dec k' k) as [->|Hk]; [|rewrite F; auto].
  destruct (insert_get _ _ _ _ _ (registers_ok _ _ _ R new_ok k) M) as [_ Q]. rewrite Q.
  destruct (String.eqb_spec n n') as [->|]; auto. congruence.
Qed.

(** A history with a duplicate name, and the same name in another kind. *)
Local Open Scope string_scope.
Example C58_ex : exists h, registers new_hwif
    [Reg KActuator "b" 1 true; Reg KActuator "a" 2 true; Reg KActuator "b" 3 false; Reg KProjector "b" 4 true] h /\
  get KActuator h "b" = Some 1 /\ get KActuator h "a" = Some 2 /\ get KProjector h "b" = Some 4 /\ get KAnalogIn h "b" = None.
Proof.
  eexists. split.
  - econstructor; [reflexivity|]. econstructor; [reflexivity|]. econstructor; [reflexivity|]. econstructor; [reflexivity|]. constructor.
  - vm_compute. auto.
Qed.
