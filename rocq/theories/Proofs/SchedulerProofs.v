(** Proofs about scheduleControllers. *)
From Coq Require Import List String Arith Bool Lia Sorting.Sorted Sorting.Permutation.
From Verif.Model Require Import Base Scheduler.
From Verif.Spec Require Import SchedulerSpec.
Import ListNotations.

(* ------------------------------------------------------------------ strings *)
Definition slt (x y : string) : Prop := String.compare x y = Lt.

Lemma compare_refl s : String.compare s s = Eq.
Proof.
  induction s as [|a s IH]; simpl; auto. unfold Ascii.compare. now rewrite BinNat.N.compare_refl.
Qed.

Lemma ascii_compare_lt_trans a b c :
  Ascii.compare a b = Lt -> Ascii.compare b c = Lt -> Ascii.compare a c = Lt.
Proof.
  unfold Ascii.compare. rewrite !BinNat.N.compare_lt_iff. lia.
Qed.

Lemma slt_trans x y z : slt x y -> slt y z -> slt x z.
Proof.
  unfold slt. revert y z.
  induction x as [|a x IH]; intros [|b y] [|c z]; simpl; try discriminate; auto.
  destruct (Ascii.compare a b) eqn:Hab; destruct (Ascii.compare b c) eqn:Hbc; try discriminate; intros H1 H2.
  - apply Ascii.compare_eq_iff in Hab, Hbc. subst.
    unfold Ascii.compare. rewrite BinNat.N.compare_refl. eauto.
  - apply Ascii.compare_eq_iff in Hab. subst. now rewrite Hbc.
  - apply Ascii.compare_eq_iff in Hbc. subst. now rewrite Hab.
  - now rewrite (ascii_compare_lt_trans _ _ _ Hab Hbc).
Qed.

Lemma slt_irrefl x : ~ slt x x.
Proof. unfold slt. rewrite compare_refl. discriminate. Qed.

Lemma compare_gt_slt x y : String.compare x y = Gt <-> slt y x.
Proof.
  unfold slt. rewrite (String.compare_antisym y x).
  destruct (String.compare x y); simpl; split; congruence.
Qed.

Lemma slt_total x y : slt x y \/ x = y \/ slt y x.
Proof.
  destruct (String.compare x y) eqn:H.
  - right; left; now apply String.compare_eq_iff.
  - now left.
  - right; right; now apply compare_gt_slt.
Qed.

(* ------------------------------------------------------------------ graphs *)
Definition keys (g : graph) : list string := map fst g.
Definition sorted (g : graph) : Prop := StronglySorted slt (keys g).
(** [x] is listed in the entry of [y] *)
Definition gedge (g : graph) (x y : string) : Prop := exists l, In (y, l) g /\ In x l.

Lemma gtouch_keys k g x : In x (keys (gtouch k g)) <-> x = k \/ In x (keys g).
Proof.
  induction g as [|[k' l] g IH]; simpl; [intuition|].
  destruct (String.compare k k') eqn:H; simpl.
  - apply String.compare_eq_iff in H. subst. intuition.
  - intuition.
  - rewrite IH. intuition.
Qed.

Lemma gtouch_sorted k g : sorted g -> sorted (gtouch k g).
Proof.
  unfold sorted. induction g as [|[k' l] g IH]; simpl; intros Hs.
  - repeat constructor.
  - inversion Hs as [|? ? Hs' Hf]; subst.
    destruct (String.compare k k') eqn:H; simpl.
    + now constructor.
    + constructor; [now constructor|]. constructor; [exact H|].
      eapply Forall_impl; [|exact Hf]. intros a Ha. now apply slt_trans with k'.
    + constructor; [now apply IH|].
      rewrite Forall_forall. intros a Ha.
      change (In a (keys (gtouch k g))) in Ha. rewrite gtouch_keys in Ha.
      destruct Ha as [->|Ha]; [now apply compare_gt_slt|].
      rewrite Forall_forall in Hf. now apply Hf.
Qed.

Lemma gtouch_edge k g x y : gedge (gtouch k g) x y <-> gedge g x y.
Proof.
  unfold gedge. induction g as [|[k' l] g IH]; simpl.
  - split; [intros (l & [H|[]] & Hx); inversion H; subst; destruct Hx|intros (l & [] & _)].
  - destruct (String.compare k k') eqn:H; simpl; try reflexivity.
    + split.
      * intros (l0 & [H0|H0] & Hx); [inversion H0; subst; destruct Hx|eauto].
      * intros (l0 & H0 & Hx); eauto.
    + split; intros (l0 & [H0|H0] & Hx); eauto.
      * destruct (proj1 IH) as (l1 & ? & ?); eauto.
      * destruct (proj2 IH) as (l1 & ? & ?); eauto.
Qed.

Lemma gpush_keys k v g : keys (gpush k v g) = keys g.
Proof.
  induction g as [|[k' l] g IH]; simpl; auto.
  destruct (String.eqb k k'); simpl; congruence.
Qed.

Lemma gpush_edge k v g x y :
  In k (keys g) -> NoDup (keys g) ->
  (gedge (gpush k v g) x y <-> gedge g x y \/ (x = v /\ y = k)).
Proof.
  unfold gedge. induction g as [|[k' l] g IH]; simpl; [tauto|].
  intros Hin Hnd. inversion Hnd as [|? ? Hni Hnd']; subst.
  destruct (String.eqb_spec k k') as [->|Hne]; simpl.
  - split.
    + intros (l0 & [H0|H0] & Hx).
      * inversion H0; subst. apply in_app_iff in Hx. destruct Hx as [Hx|[Hx|[]]]; subst; eauto.
      * eauto.
    + intros [(l0 & [H0|H0] & Hx)|[-> ->]].
      * inversion H0; subst. exists (l0 ++ [v]); split; [now left|]. apply in_or_app; auto.
      * eauto.
      * exists (l ++ [v]); split; [now left|]. apply in_or_app; right; now left.
  - destruct Hin as [Hin|Hin]; [congruence|]. specialize (IH Hin Hnd').
    split.
    + intros (l0 & [H0|H0] & Hx); [eauto|].
      destruct (proj1 IH) as [(l1 & ? & ?)|?]; eauto.
    + intros [(l0 & [H0|H0] & Hx)|H0]; eauto.
      * destruct (proj2 IH) as (l1 & ? & ?); eauto.
      * destruct (proj2 IH (or_intror H0)) as (l1 & ? & ?); eauto.
Qed.

Lemma sorted_nodup g : sorted g -> NoDup (keys g).
Proof.
  unfold sorted. induction 1 as [|a l Hs IH Hf]; constructor; auto.
  intros Hin. rewrite Forall_forall in Hf. now apply (slt_irrefl a), Hf.
Qed.

Lemma gfind_in k g : (exists l, gfind k g = Some l) <-> In k (keys g).
Proof.
  induction g as [|[k' l] g IH]; simpl.
  - split; [intros (l & H); discriminate|tauto].
  - destruct (String.eqb_spec k k') as [->|Hne].
    + split; eauto.
    + rewrite IH. split; [auto|intros [H|H]; [congruence|auto]].
Qed.

Lemma build_before_props name bs : forall g,
  In name (keys g) -> sorted g ->
  let g' := build_before name bs g in
  keys g' = keys g /\ sorted g' /\
  (forall x y, gedge g' x y <-> gedge g x y \/ (In x bs /\ y = name)).
Proof.
  unfold build_before. induction bs as [|b bs IH]; intros g Hin Hs; simpl.
  - repeat split; auto; tauto.
  - assert (Hk : keys (gpush name b g) = keys g) by apply gpush_keys.
    destruct (IH (gpush name b g)) as (H1 & H2 & H3).
    { now rewrite Hk. } { unfold sorted. now rewrite Hk. }
    repeat split.
    + congruence.
    + exact H2.
    + intros H. apply H3 in H. rewrite gpush_edge in H by (auto using sorted_nodup). intuition; subst; auto.
    + intros H. apply H3. rewrite gpush_edge by (auto using sorted_nodup). intuition; subst; auto.
Qed.

Lemma build_after_props name as_ : forall g,
  sorted g ->
  match build_after name as_ g with
  | None => exists a, In a as_ /\ ~ In a (keys g)
  | Some g' =>
      keys g' = keys g /\ sorted g' /\ (forall a, In a as_ -> In a (keys g)) /\
      (forall x y, gedge g' x y <-> gedge g x y \/ (x = name /\ In y as_))
  end.
Proof.
  induction as_ as [|a as_ IH]; intros g Hs; simpl.
  - repeat split; auto; intuition.
  - destruct (gfind a g) eqn:Hf.
    + assert (Hin : In a (keys g)) by (apply gfind_in; eauto).
      assert (Hk : keys (gpush a name g) = keys g) by apply gpush_keys.
      assert (Hs' : sorted (gpush a name g)) by (unfold sorted; now rewrite Hk).
      specialize (IH _ Hs').
      destruct (build_after name as_ (gpush a name g)) as [g'|] eqn:Hb.
      * destruct IH as (H1 & H2 & H3 & H4). rewrite Hk in *.
        repeat split; auto.
        -- intros b [->|Hb']; auto.
        -- intros H. apply H4 in H. rewrite gpush_edge in H by (auto using sorted_nodup).
           intuition; subst; auto.
        -- intros H. apply H4. rewrite gpush_edge by (auto using sorted_nodup).
           intuition; subst; auto.
      * destruct IH as (b & Hb1 & Hb2). rewrite Hk in Hb2. eauto.
    + exists a. split; auto. intros Hin. apply gfind_in in Hin. destruct Hin; congruence.
Qed.

Lemma build_graph_props c : forall g,
  sorted g ->
  match build_graph c g with
  | Some g' =>
      sorted g' /\
      (forall x, In x (keys g') <-> In x (keys g) \/ In x (names c)) /\
      (forall x y, gedge g' x y <-> gedge g x y \/ must_precede c x y) /\
      (forall c1 s c2 a, c = c1 ++ s :: c2 -> In a (sp_after s) ->
         In a (keys g) \/ In a (names (c1 ++ [s])))
  | None =>
      exists c1 s c2 a, c = c1 ++ s :: c2 /\ In a (sp_after s) /\
         ~ In a (keys g) /\ ~ In a (names (c1 ++ [s]))
  end.
Proof.
  induction c as [|s c IH]; intros g Hs; cbn [build_graph].
  - repeat split; auto.
    + intros [H|[]]; auto.
    + intros [H|H]; auto. destruct H as [(s & [] & _)|(s & [] & _)].
    + intros c1 s c2 a H. destruct c1; discriminate.
  - set (nm := sp_name s).
    assert (Hs1 : sorted (gtouch nm g)) by now apply gtouch_sorted.
    assert (Hin1 : In nm (keys (gtouch nm g))) by (apply gtouch_keys; now left).
    destruct (build_before_props nm (sp_before s) _ Hin1 Hs1) as (Hk2 & Hs2 & He2).
    set (g2 := build_before nm (sp_before s) (gtouch nm g)) in *.
    assert (Hkk : forall x, In x (keys g2) <-> x = nm \/ In x (keys g)).
    { intros x. rewrite Hk2. apply gtouch_keys. }
    pose proof (build_after_props nm (sp_after s) g2 Hs2) as Ha.
    destruct (build_after nm (sp_after s) g2) as [g3|].
    + destruct Ha as (Hk3 & Hs3 & Ha3 & He3). specialize (IH g3 Hs3).
      assert (Hkk3 : forall x, In x (keys g3) <-> x = nm \/ In x (keys g)).
      { intros x. rewrite Hk3. apply Hkk. }
      destruct (build_graph c g3) as [g'|] eqn:Hb.
      * destruct IH as (I1 & I2 & I3 & I4). split; [exact I1|]. split; [|split].
        -- intros x. rewrite I2, Hkk3. simpl. subst nm. intuition.
        -- intros x y. rewrite I3, He3, He2, gtouch_edge. unfold must_precede. subst nm. split.
           ++ intros [[[H|[Hb1 Hb2]]|[Hb1 Hb2]]|[(s' & H1 & H2)|(s' & H1 & H2)]]; auto.
              ** right; left; exists s; simpl; auto.
              ** right; right; exists s; simpl; auto.
              ** right; left; exists s'; simpl; auto.
              ** right; right; exists s'; simpl; auto.
           ++ intros [H|[(s' & [<-|H1] & H2 & H3)|(s' & [<-|H1] & H2 & H3)]]; auto.
              ** right; left; exists s'; auto.
              ** right; right; exists s'; auto.
        -- intros c1 s' c2 a Heq Hia. destruct c1 as [|s1 c1]; simpl in Heq; inversion Heq; subst.
           ++ apply Ha3 in Hia. apply Hkk in Hia. simpl. subst nm. intuition.
           ++ destruct (I4 _ _ _ _ eq_refl Hia) as [H|H].
              ** apply Hkk3 in H. simpl. subst nm. intuition.
              ** simpl. auto.
      * destruct IH as (c1 & s' & c2 & a & -> & Hia & Hn1 & Hn2).
        exists (s :: c1), s', c2, a. split; auto. split; auto. split.
        -- intros H. apply Hn1, Hkk3. auto.
        -- simpl. intros [H|H]; [|auto]. apply Hn1, Hkk3. auto.
    + destruct Ha as (a & Hia & Hn). exists [], s, c, a. split; auto. split; auto. split.
      * intros H. apply Hn, Hkk. auto.
      * simpl. intros [H|[]]. apply Hn, Hkk. auto.
Qed.

(* ------------------------------------------------------------------ next controller *)
Lemma find_free_some g c :
  find_free g = Some c ->
  exists g1 g2, g = g1 ++ (c, []) :: g2 /\ forall k l, In (k, l) g1 -> l <> [].
Proof.
  induction g as [|[k [|x l]] g IH]; simpl; try discriminate.
  - intros H; inversion H; subst. exists [], g. split; auto.
  - intros H. destruct (IH H) as (g1 & g2 & -> & Hl).
    exists ((k, x :: l) :: g1), g2. split; auto.
    intros k' l' [H'|H']; [inversion H'; subst; discriminate|eauto].
Qed.

Lemma find_free_none g : find_free g = None -> forall k l, In (k, l) g -> l <> [].
Proof.
  induction g as [|[k [|x l]] g IH]; simpl; try discriminate; [tauto|].
  intros H k' l' [H'|H']; [inversion H'; subst; discriminate|eauto].
Qed.

Lemma keys_filter (f : string -> bool) g :
  keys (filter (fun e => f (fst e)) g) = filter f (keys g).
Proof.
  induction g as [|[k l] g IH]; simpl; auto.
  destruct (f k); simpl; congruence.
Qed.

Lemma keys_map (f : string -> list string -> list string) (g : graph) :
  keys (map (fun e => (fst e, f (fst e) (snd e))) g) = keys g.
Proof. induction g; simpl; congruence. Qed.

Lemma sorted_filter (f : string -> bool) l :
  StronglySorted slt l -> StronglySorted slt (filter f l).
Proof.
  induction 1 as [|a l Hs IH Hf]; simpl; [constructor|].
  destruct (f a); auto. constructor; auto.
  rewrite Forall_forall in *. intros x Hx. apply filter_In in Hx. now apply Hf.
Qed.

(** One round of the loop, in terms of keys and edges. *)
Lemma next_props g :
  sorted g ->
  match getNextController g with
  | None => forall k, In k (keys g) -> exists x, gedge g x k
  | Some (c, g') =>
      In c (keys g) /\ (forall x, ~ gedge g x c) /\
      (forall k, In k (keys g) -> (forall x, ~ gedge g x k) -> c = k \/ slt c k) /\
      sorted g' /\
      (forall k, In k (keys g') <-> In k (keys g) /\ k <> c) /\
      (forall x y, gedge g' x y <-> gedge g x y /\ x <> c /\ y <> c) /\
      S (List.length g') = List.length g
  end.
Proof.
  intros Hs. unfold getNextController.
  pose proof (sorted_nodup g Hs) as Hnd.
  destruct (find_free g) as [c|] eqn:Hf.
  - destruct (find_free_some _ _ Hf) as (g1 & g2 & Hg & Hl).
    assert (Huniq : forall l, In (c, l) g -> l = []).
    { intros l Hin. subst g. unfold keys in Hnd. rewrite map_app in Hnd. simpl in Hnd.
      apply NoDup_remove_2 in Hnd.
      apply in_app_iff in Hin. destruct Hin as [Hin|[Hin|Hin]].
      - exfalso. apply Hnd, in_or_app. left. now apply (in_map fst) in Hin.
      - congruence.
      - exfalso. apply Hnd, in_or_app. right. now apply (in_map fst) in Hin. }
    assert (Hkeys : keys (map (fun e => (fst e, remove_name c (snd e))) (gerase c g))
                    = filter (fun k => negb (String.eqb k c)) (keys g)).
    { rewrite (keys_map (fun _ l => remove_name c l)). unfold gerase.
      apply (keys_filter (fun k => negb (String.eqb k c))). }
    split; [|split; [|split; [|split; [|split; [|split]]]]].
    + subst g. unfold keys. rewrite map_app. apply in_or_app. right. now left.
    + intros x (l & Hin & Hx). apply Huniq in Hin. now subst l.
    + intros k Hk Hno. subst g. unfold keys in Hk. rewrite map_app in Hk. simpl in Hk.
      apply in_app_iff in Hk. destruct Hk as [Hk|[Hk|Hk]].
      * exfalso. apply in_map_iff in Hk. destruct Hk as ([k' l] & <- & Hin).
        specialize (Hl _ _ Hin). destruct l as [|x l]; [congruence|].
        apply (Hno x). exists (x :: l). split; [apply in_or_app; now left|now left].
      * now left.
      * right. unfold sorted, keys in Hs. rewrite map_app in Hs. simpl in Hs.
        clear -Hs Hk. induction (map fst g1) as [|a l IH]; simpl in Hs.
        -- inversion Hs as [|? ? _ Hf]; subst. rewrite Forall_forall in Hf. now apply Hf.
        -- inversion Hs; subst; auto.
    + unfold sorted. rewrite Hkeys. now apply sorted_filter.
    + intros k. rewrite Hkeys, filter_In. destruct (String.eqb_spec k c); simpl; intuition congruence.
    + intros x y. unfold gedge. split.
      * intros (l & Hin & Hx). apply in_map_iff in Hin. destruct Hin as ([y' l'] & Heq & Hin).
        simpl in Heq. inversion Heq; subst; clear Heq.
        unfold gerase in Hin. apply filter_In in Hin. simpl in Hin. destruct Hin as [Hin Hy].
        unfold remove_name in Hx. apply filter_In in Hx. destruct Hx as [Hx Hxc].
        destruct (String.eqb_spec y c); [discriminate|].
        destruct (String.eqb_spec x c); [discriminate|]. eauto.
      * intros ((l & Hin & Hx) & Hxc & Hyc).
        exists (remove_name c l). split.
        -- apply in_map_iff. exists (y, l). split; auto. unfold gerase. apply filter_In. split; auto.
           simpl. destruct (String.eqb_spec y c); [contradiction|reflexivity].
        -- unfold remove_name. apply filter_In. split; auto.
           destruct (String.eqb_spec x c); [contradiction|reflexivity].
    + rewrite map_length. subst g. clear -Hnd. unfold gerase, keys in *.
      rewrite map_app in Hnd. simpl in Hnd. apply NoDup_remove_2 in Hnd.
      rewrite filter_app. simpl. rewrite String.eqb_refl. simpl.
      assert (Hid : forall h : graph, ~ In c (map fst h) ->
                    filter (fun e => negb (String.eqb (fst e) c)) h = h).
      { induction h as [|[k l] h IH]; simpl; auto. intros H.
        destruct (String.eqb_spec k c); [subst; tauto|]. simpl. f_equal. apply IH. tauto. }
      rewrite !Hid by (intros H; apply Hnd, in_or_app; auto).
      rewrite !app_length. simpl. lia.
  - intros k Hk. unfold keys in Hk. apply in_map_iff in Hk. destruct Hk as ([k' l] & <- & Hin).
    simpl. pose proof (find_free_none _ Hf _ _ Hin) as Hne. destruct l as [|x l]; [congruence|].
    exists x, (x :: l). split; auto. now left.
Qed.

(* ------------------------------------------------------------------ index assignment *)
Lemma vset_ok {A} (v : list A) i x : i < List.length v -> vset v i x = Ok (set_nth i x v).
Proof. intros H. unfold vset. apply Nat.ltb_lt in H. now rewrite H. Qed.

Lemma set_nth_length {A} i (x : A) v : List.length (set_nth i x v) = List.length v.
Proof. revert i; induction v; intros [|i]; simpl; auto. Qed.

Lemma set_nth_same {A} i (x : A) v : i < List.length v -> nth_error (set_nth i x v) i = Some x.
Proof. revert i; induction v; intros [|i] H; simpl in *; auto; try lia. apply IHv; lia. Qed.

Lemma set_nth_other {A} i j (x : A) v : i <> j -> nth_error (set_nth i x v) j = nth_error v j.
Proof. revert i j; induction v; intros [|i] [|j] H; simpl in *; auto; try congruence. Qed.

Lemma set_nth_twice {A} i (x y : A) v : set_nth i x (set_nth i y v) = set_nth i x v.
Proof. revert i; induction v; intros [|i]; simpl; auto. now rewrite IHv. Qed.

Lemma assign_ids_absent c name nr s : forall i,
  ~ In name (names c) -> assign_ids c i name nr s = Ok s.
Proof.
  induction c as [|sp c IH]; intros i H; simpl; auto.
  destruct (String.eqb_spec (sp_name sp) name); [exfalso; apply H; now left|].
  apply IH. intros ?; apply H; now right.
Qed.

Lemma assign_ids_spec c name nr : forall i s,
  nr < List.length s -> In name (names c) ->
  exists j, j < List.length c /\ nth_error (names c) j = Some name /\
            assign_ids c i name nr s = Ok (set_nth nr (i + j) s).
Proof.
  induction c as [|sp c IH]; intros i s Hnr Hin; simpl in *; [tauto|].
  destruct (in_dec string_dec name (names c)) as [Hin'|Hnin].
  - destruct (String.eqb_spec (sp_name sp) name) as [He|Hne].
    + rewrite vset_ok by auto. simpl.
      destruct (IH (S i) (set_nth nr i s)) as (j & H1 & H2 & H3); auto.
      { now rewrite set_nth_length. }
      exists (S j). repeat split; auto; try lia. rewrite H3, set_nth_twice. do 2 f_equal. lia.
    + destruct (IH (S i) s) as (j & H1 & H2 & H3); auto.
      exists (S j). repeat split; auto; try lia. rewrite H3. do 2 f_equal. lia.
  - destruct Hin as [He|Hin]; [|contradiction].
    exists 0. rewrite (proj2 (String.eqb_eq _ _) He). rewrite vset_ok by auto. simpl.
    repeat split; try lia; [now f_equal|]. rewrite assign_ids_absent by auto.
    do 2 f_equal. lia.
Qed.

Lemma NoDup_snoc {A} (l : list A) x : NoDup l -> ~ In x l -> NoDup (l ++ [x]).
Proof.
  intros Hl Hx. apply (Permutation_NoDup (l := x :: l)).
  - apply Permutation_cons_append.
  - now constructor.
Qed.

(* ------------------------------------------------------------------ the loop *)
Section Loop.
  Context (c : list spec).

  (** the graph that remains once [done] has been scheduled *)
  Definition remaining (done : list string) (g : graph) : Prop :=
    sorted g /\
    (forall k, In k (keys g) <-> In k (names c) /\ ~ In k done) /\
    (forall x y, gedge g x y <-> must_precede c x y /\ ~ In x done /\ ~ In y done).

  Definition placed (done : list string) (s : list nat) : Prop :=
    forall p x, nth_error done p = Some x ->
      exists i, nth_error s p = Some i /\ nth_error (names c) i = Some x.

  Lemma remaining_available done g k :
    remaining done g ->
    (In k (keys g) /\ (forall x, ~ gedge g x k)) <-> 
    (In k (names c) /\ ~ In k done /\ forall y, must_precede c y k -> In y done).
  Proof.
    intros (Hs & Hk & He). rewrite Hk. split.
    - intros ((H1 & H2) & H3). repeat split; auto. intros y Hy.
      destruct (in_dec string_dec y done); auto. exfalso. apply (H3 y), He. auto.
    - intros (H1 & H2 & H3). repeat split; auto. intros x Hx. apply He in Hx.
      destruct Hx as (Hx & Hx1 & _). auto.
  Qed.

  Definition greedy_prefix (o : list string) : Prop :=
    forall pre x post, o = pre ++ x :: post ->
      available c pre x /\ forall y, available c pre y -> x = y \/ slt x y.

  Lemma greedy_snoc o x :
    greedy_prefix o -> available c o x -> (forall y, available c o y -> x = y \/ slt x y) ->
    greedy_prefix (o ++ [x]).
  Proof.
    intros Hg Ha Hm pre z post Heq.
    destruct post as [|w post] using rev_ind.
    - apply app_inj_tail in Heq. destruct Heq as [<- <-]. auto.
    - clear IHpost. rewrite app_comm_cons, app_assoc in Heq.
      apply app_inj_tail in Heq. destruct Heq as [Heq _]. eauto.
  Qed.

  Lemma sched_loop_spec : forall fuel g done s,
    List.length g <= fuel ->
    remaining done g -> NoDup done -> incl done (names c) ->
    List.length done + List.length g <= List.length s ->
    placed done s -> greedy_prefix done ->
    match sched_loop fuel c g (List.length done) s with
    | SchedOk s' =>
        exists o, greedy_prefix o /\ NoDup o /\ (forall x, In x o <-> In x (names c)) /\
             placed o s' /\ List.length s' = List.length s /\
             (forall p, List.length o <= p -> nth_error s' p = nth_error s p)
    | SchedFail s' =>
        List.length s' = List.length s /\
        exists o k, greedy_prefix o /\ NoDup o /\ incl o (names c) /\
          In k (names c) /\ ~ In k o /\ (forall k, ~ available c o k)
    | _ => False
    end.
  Proof.
    induction fuel as [|fuel IH]; intros g done s Hf Hr Hnd Hincl Hlen Hpl Hg.
    - destruct g as [|e g]; [|simpl in Hf; lia]. simpl.
      exists done. split; [auto|split; [auto|split; [|auto]]].
      destruct Hr as (_ & Hk & _). intros x. split; [apply Hincl|].
      intros Hx. destruct (in_dec string_dec x done); auto. exfalso. apply (Hk x). auto.
    - destruct g as [|e g].
      + simpl. exists done. split; [auto|split; [auto|split; [|auto]]].
        destruct Hr as (_ & Hk & _). intros x. split; [apply Hincl|].
        intros Hx. destruct (in_dec string_dec x done); auto. exfalso. apply (Hk x). auto.
      + remember (e :: g) as g0 eqn:Hg0.
        assert (Hunf : sched_loop (S fuel) c g0 (List.length done) s =
          match getNextController g0 with
          | None => SchedFail s
          | Some (name, g') =>
              match assign_ids c 0 name (List.length done) s with
              | Ok s' => sched_loop fuel c g' (S (List.length done)) s'
              | _ => SchedUB
              end
          end) by (subst g0; reflexivity).
        rewrite Hunf. clear Hunf.
        pose proof Hr as (Hs & Hk & He).
        pose proof (next_props g0 Hs) as Hn.
        destruct (getNextController g0) as [[name g']|].
        * destruct Hn as (Hn1 & Hn2 & Hn3 & Hn4 & Hn5 & Hn6 & Hn7).
          assert (Hav : available c done name).
          { destruct (proj1 (remaining_available done g0 name Hr)) as (A1 & A2 & A3); [auto|].
            repeat split; auto. }
          pose proof (proj1 Hav) as Hin.
          destruct (assign_ids_spec c name (List.length done) 0 s) as (j & Hj1 & Hj2 & Hj3); auto.
          { subst g0. simpl in Hlen. lia. }
          rewrite Hj3. simpl plus.
          specialize (IH g' (done ++ [name]) (set_nth (List.length done) j s)).
          rewrite app_length in IH. simpl in IH. rewrite Nat.add_1_r in IH.
          rewrite set_nth_length in IH.
          assert (Hlt : List.length done < List.length s) by (subst g0; simpl in Hlen; lia).
          assert (HIH : match sched_loop fuel c g' (S (List.length done)) (set_nth (List.length done) j s) with
            | SchedOk s' =>
                exists o, greedy_prefix o /\ NoDup o /\ (forall x, In x o <-> In x (names c)) /\
                     placed o s' /\ List.length s' = List.length s /\
                     (forall p, List.length o <= p -> nth_error s' p = nth_error (set_nth (List.length done) j s) p)
            | SchedFail s' =>
                List.length s' = List.length s /\
                exists o k, greedy_prefix o /\ NoDup o /\ incl o (names c) /\
                  In k (names c) /\ ~ In k o /\ (forall k, ~ available c o k)
            | _ => False
            end).
          { apply IH.
            - lia.
            - split; [exact Hn4|split].
              + intros k. rewrite Hn5, Hk, in_app_iff. simpl. intuition congruence.
              + intros x y. rewrite Hn6, He, !in_app_iff. simpl. intuition congruence.
            - apply NoDup_snoc; [auto|apply Hav].
            - intros x Hx. apply in_app_iff in Hx. destruct Hx as [Hx|[<-|[]]]; auto.
            - rewrite <- Hn7 in Hlen. lia.
            - intros p x Hp. destruct (Nat.lt_ge_cases p (List.length done)) as [Hlt'|Hge].
              + rewrite nth_error_app1 in Hp by auto.
                destruct (Hpl _ _ Hp) as (i & Hi1 & Hi2). exists i. split; auto.
                rewrite set_nth_other by lia. auto.
              + rewrite nth_error_app2 in Hp by auto.
                destruct (p - List.length done) as [|q] eqn:Hq; simpl in Hp; [|destruct q; discriminate].
                inversion Hp; subst x. assert (p = List.length done) as -> by lia.
                exists j. split; auto. now apply set_nth_same.
            - apply greedy_snoc; auto. intros y Hy. apply Hn3.
              + apply (remaining_available done g0 y Hr); auto.
              + apply (remaining_available done g0 y Hr); auto. }
          destruct (sched_loop fuel c g' (S (List.length done)) (set_nth (List.length done) j s)); auto.
          destruct HIH as (o & Ho1 & Ho2 & Ho3 & Ho4 & Ho5 & Ho6).
          exists o. do 5 (split; [assumption|]).
          intros p Hp. rewrite Ho6 by auto. apply set_nth_other.
          intros <-.
          assert (Hnl : List.length done < List.length o).
          { assert (Hi : incl (done ++ [name]) o).
            { intros x Hx. apply Ho3. apply in_app_iff in Hx. destruct Hx as [Hx|[<-|[]]]; auto. }
            apply NoDup_incl_length in Hi.
            - rewrite app_length in Hi. simpl in Hi. lia.
            - apply NoDup_snoc; [auto|apply Hav]. }
          lia.
        * split; auto. exists done.
          assert (Hk0 : In (fst e) (keys g0)) by (subst g0; left; reflexivity).
          exists (fst e). do 3 (split; [assumption|]). split; [now apply Hk|]. split; [now apply Hk|].
          intros k Hav. destruct Hav as (H1 & H2 & H3).
          destruct (proj2 (remaining_available done g0 k Hr)) as [Hin Hno]; [auto|].
          destruct (Hn k Hin) as (x & Hx). now apply (Hno x).
  Qed.
End Loop.

Lemma gedge_nil x y : ~ gedge [] x y.
Proof. intros (l & [] & _). Qed.

Lemma resize_length {A} (d : A) n v : List.length (resize d n v) = n.
Proof. unfold resize. rewrite app_length, firstn_length, repeat_length. lia. Qed.

Lemma graph_length g c :
  sorted g -> (forall k, In k (keys g) <-> In k (names c)) -> List.length g <= List.length c.
Proof.
  intros Hs Hk.
  assert (H : List.length (keys g) <= List.length (names c)).
  { apply NoDup_incl_length; [now apply sorted_nodup|]. intros x Hx. now apply Hk. }
  unfold keys, names in H. now rewrite !map_length in H.
Qed.

(** Main characterisation (no assumption on names). *)
Lemma schedule_master c old :
  match build_graph c [] with
  | None => ~ after_refs_loaded c /\
            scheduleControllers c old = SchedFail (resize 0 (List.length c) old)
  | Some g =>
      after_refs_loaded c /\
      match sched_loop (List.length g) c g 0 (resize 0 (List.length c) old) with
      | SchedOk s' =>
        exists o, greedy_prefix c o /\ NoDup o /\ (forall x, In x o <-> In x (names c)) /\
             placed c o s' /\ List.length s' = List.length c /\
             (forall p, List.length o <= p ->
                nth_error s' p = nth_error (resize 0 (List.length c) old) p)
      | SchedFail s' =>
        List.length s' = List.length c /\
        exists o k, greedy_prefix c o /\ NoDup o /\ incl o (names c) /\
          In k (names c) /\ ~ In k o /\ (forall k, ~ available c o k)
      | _ => False
      end
  end.
Proof.
  assert (Hs0 : sorted []) by constructor.
  pose proof (build_graph_props c [] Hs0) as Hb.
  unfold scheduleControllers.
  destruct (build_graph c []) as [g|].
  - destruct Hb as (Hs & Hk & He & Haf). split.
    + intros c1 s c2 a Heq Hin. destruct (Haf c1 s c2 a Heq Hin) as [[]|H]; auto.
    + assert (Hk' : forall k, In k (keys g) <-> In k (names c)).
      { intros k. rewrite Hk. simpl. tauto. }
      pose proof (sched_loop_spec c (List.length g) g [] (resize 0 (List.length c) old)) as HL.
      simpl List.length in HL. simpl plus in HL. rewrite !resize_length in HL.
      apply HL; auto.
      * split; [exact Hs|split].
        -- intros k. rewrite Hk'. simpl. tauto.
        -- intros x y. rewrite He. simpl. split; [|tauto].
           intros [H|H]; [destruct (gedge_nil _ _ H)|tauto].
      * constructor.
      * intros x [].
      * now apply graph_length.
      * intros [|p] x Hx; discriminate.
      * intros [|? pre] x post Hx; discriminate.
  - split; auto. destruct Hb as (c1 & s & c2 & a & Heq & Hin & _ & Hn).
    intros Hall. now apply Hn, (Hall c1 s c2 a).
Qed.

(* ------------------------------------------------------------------ consequences *)
Lemma nodup_placed_bound c o s : placed c o s -> List.length o = List.length s ->
  Forall (fun i => i < List.length c) s.
Proof.
  intros Hp Hl. apply Forall_forall. intros i Hi.
  apply In_nth_error in Hi. destruct Hi as (p & Hp').
  assert (Hlt : p < List.length o).
  { rewrite Hl. apply nth_error_Some. congruence. }
  apply nth_error_Some in Hlt. destruct (nth_error o p) as [x|] eqn:Hx; [|congruence].
  destruct (Hp _ _ Hx) as (i' & H1 & H2). rewrite Hp' in H1. inversion H1; subst i'.
  assert (H : nth_error (names c) i <> None) by congruence.
  apply nth_error_Some in H. unfold names in H. now rewrite map_length in H.
Qed.

Lemma show_ok_Forall c s : Forall (fun i => i < List.length c) s -> show_ok c s = true.
Proof.
  intros H. apply forallb_forall. intros i Hi. rewrite Forall_forall in H.
  apply Nat.ltb_lt. auto.
Qed.

Lemma placed_order_of c o s : placed c o s -> List.length o = List.length s ->
  order_of c s = map Some o.
Proof.
  revert s. induction o as [|x o IH]; intros [|i s] Hp Hl; simpl in *; try discriminate; auto.
  f_equal.
  - destruct (Hp 0 x eq_refl) as (i' & H1 & H2). simpl in H1. inversion H1; subst.
    unfold names in H2. rewrite nth_error_map in H2. exact H2.
  - apply IH; auto. intros p y Hy. apply (Hp (S p) y Hy).
Qed.

Lemma greedy_comes_before c o x y :
  greedy_prefix c o -> In y o -> must_precede c x y -> comes_before o x y.
Proof.
  intros Hg Hy Hm. apply in_split in Hy. destruct Hy as (pre & post & ->).
  destruct (Hg _ _ _ eq_refl) as ((_ & _ & Hall) & _).
  specialize (Hall _ Hm). apply In_nth_error in Hall. destruct Hall as (i & Hi).
  assert (Hlt : i < List.length pre) by (apply nth_error_Some; congruence).
  exists i, (List.length pre). split; auto. split.
  - rewrite nth_error_app1; auto.
  - rewrite nth_error_app2 by auto. now rewrite Nat.sub_diag.
Qed.

Lemma greedy_nodup c o : greedy_prefix c o -> NoDup o.
Proof.
  induction o as [|x o IH] using rev_ind; intros Hg; [constructor|].
  assert (Hg' : greedy_prefix c o).
  { intros pre z post ->. apply (Hg pre z (post ++ [x])). now rewrite <- app_assoc. }
  apply NoDup_snoc; [auto|]. apply (Hg o x []). reflexivity.
Qed.

(** Two greedy orders covering the same names agree. *)
Lemma greedy_unique c o1 o2 :
  greedy_prefix c o1 -> greedy_prefix c o2 ->
  (forall x, In x o1 <-> In x (names c)) -> (forall x, In x o2 <-> In x (names c)) ->
  o1 = o2.
Proof.
  intros H1 H2 I1 I2.
  assert (Hpre : forall n, firstn n o1 = firstn n o2 -> 
            firstn (S n) o1 = firstn (S n) o2).
  { intros n Hn.
    destruct (skipn n o1) as [|x r1] eqn:E1; destruct (skipn n o2) as [|y r2] eqn:E2.
    - assert (List.length o1 <= n) by (destruct (Nat.le_gt_cases (List.length o1) n); auto;
        pose proof (skipn_length n o1) as HH; rewrite E1 in HH; simpl in HH; lia).
      assert (List.length o2 <= n) by (destruct (Nat.le_gt_cases (List.length o2) n); auto;
        pose proof (skipn_length n o2) as HH; rewrite E2 in HH; simpl in HH; lia).
      rewrite !firstn_all2 in * by lia. auto.
    - exfalso. rewrite <- (firstn_skipn n o2) in H2. rewrite E2 in H2.
      destruct (H2 _ _ _ eq_refl) as ((Hy & Hny & _) & _).
      apply I1 in Hy. rewrite <- (firstn_skipn n o1), E1, app_nil_r in Hy. congruence.
    - exfalso. rewrite <- (firstn_skipn n o1) in H1. rewrite E1 in H1.
      destruct (H1 _ _ _ eq_refl) as ((Hy & Hny & _) & _).
      apply I2 in Hy. rewrite <- (firstn_skipn n o2), E2, app_nil_r in Hy. congruence.
    - rewrite <- (firstn_skipn n o1) in H1. rewrite E1 in H1.
      rewrite <- (firstn_skipn n o2) in H2. rewrite E2 in H2.
      destruct (H1 _ _ _ eq_refl) as (A1 & M1). destruct (H2 _ _ _ eq_refl) as (A2 & M2).
      rewrite Hn in A1, M1. specialize (M1 _ A2). specialize (M2 _ A1).
      assert (x = y).
      { destruct M1 as [->|M1]; auto. destruct M2 as [->|M2]; auto.
        exfalso. apply (slt_irrefl x). now apply slt_trans with y. }
      subst y.
      assert (F : forall (o : list string) r, skipn n o = x :: r -> firstn (S n) o = firstn n o ++ [x]).
      { clear. intros o. revert n. induction o as [|a o IH]; intros [|n] r H; simpl in *; try discriminate.
        - inversion H; subst. reflexivity.
        - f_equal. apply IH with r. exact H. }
      rewrite (F _ _ E1), (F _ _ E2). congruence. }
  assert (Hall : forall n, firstn n o1 = firstn n o2).
  { induction n; auto. }
  specialize (Hall (List.length o1 + List.length o2)).
  rewrite !firstn_all2 in Hall by lia. exact Hall.
Qed.

(** Soundness and completeness in one statement, for unique names. *)
Lemma schedule_correct c old :
  NoDup (names c) ->
  match scheduleControllers c old with
  | SchedOk s =>
      List.length s = List.length c /\ Forall (fun i => i < List.length c) s /\
      exists o, order_of c s = map Some o /\ greedy_prefix c o /\
           (forall x, In x o <-> In x (names c)) /\ admissible c o /\ after_refs_loaded c
  | SchedFail s => 
      List.length s = List.length c /\ ~ (after_refs_loaded c /\ exists o, admissible c o)
  | _ => False
  end.
Proof.
  intros Hnd. pose proof (schedule_master c old) as Hm. unfold scheduleControllers in *.
  destruct (build_graph c []) as [g|].
  2:{ destruct Hm as [Hm _]. split; [apply resize_length|]. tauto. }
  destruct Hm as [Haf Hm].
  destruct (sched_loop (List.length g) c g 0 (resize 0 (List.length c) old)) as [s|s| |] eqn:HL; try tauto.
  - destruct Hm as (o & Hg & Hndo & Hin & Hp & Hls & _).
    assert (Hlo : List.length o = List.length s).
    { rewrite Hls. transitivity (List.length (names c)).
      - apply Nat.le_antisymm; apply NoDup_incl_length; auto; intros x Hx; now apply Hin.
      - unfold names. apply map_length. }
    pose proof (nodup_placed_bound _ _ _ Hp Hlo) as Hfa.
    rewrite (show_ok_Forall _ _ Hfa). split; auto. split; auto.
    exists o. split; [now apply placed_order_of|]. split; auto. split; auto. split; auto.
    split.
    + apply NoDup_Permutation; auto.
    + intros x y Hxy. eapply greedy_comes_before; eauto.
      apply Hin. destruct Hxy as [(s' & H1 & H2 & H3)|(s' & H1 & H2 & H3)].
      * apply in_map_iff. exists s'. auto.
      * apply in_split in H1. destruct H1 as (c1 & c2 & ->).
        specialize (Haf c1 s' c2 y eq_refl H3). unfold names in *. rewrite map_app in *.
        simpl in *. rewrite in_app_iff in *. simpl in *. tauto.
  - destruct Hm as (Hl & o & k & Hg & Hndo & Hin & Hk & Hko & Hno). split; auto.
    intros (_ & adm & Hperm & Hord).
    (* the first element of adm that is not in o is available *)
    assert (Hf : exists pre x post, adm = pre ++ x :: post /\ ~ In x o /\ incl pre o).
    { assert (Hka : In k adm) by (eapply Permutation_in; [apply Permutation_sym|]; eauto).
      clear -Hka Hko. induction adm as [|a adm IH]; [destruct Hka|].
      destruct (in_dec string_dec a o) as [Ha|Ha].
      - destruct Hka as [->|Hka]; [contradiction|].
        destruct (IH Hka) as (pre & x & post & -> & Hx & Hi).
        exists (a :: pre), x, post. repeat split; auto. intros y [<-|Hy]; auto.
      - exists [], a, adm. repeat split; auto. intros y []. }
    destruct Hf as (pre & x & post & -> & Hx & Hi).
    apply (Hno x). repeat split; auto.
    + eapply Permutation_in; [exact Hperm|]. apply in_or_app. right. now left.
    + intros y Hy. destruct (Hord _ _ Hy) as (i & j & Hij & Hi1 & Hj1).
      assert (Hnda : NoDup (pre ++ x :: post)).
      { eapply Permutation_NoDup; [apply Permutation_sym; exact Hperm|exact Hnd]. }
      assert (j = List.length pre).
      { eapply NoDup_nth_error; eauto.
        - apply nth_error_Some. congruence.
        - rewrite Hj1. rewrite nth_error_app2 by auto. rewrite Nat.sub_diag. reflexivity. }
      subst j. rewrite nth_error_app1 in Hi1 by auto. apply nth_error_In in Hi1. auto.
Qed.
