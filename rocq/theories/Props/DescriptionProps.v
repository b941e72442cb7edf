(** C76-C78: what the built-in transmissions read from a robot description. *)
From Coq Require Import List String Arith Bool ZArith Lia.
From Verif.Model Require Import Base Num Joint Hardware Xml Transmission Simple Belt Gripper.
From Verif.Spec Require Import DescriptionSpec.
Import ListNotations.
Local Open Scope string_scope.
Local Open Scope list_scope.

Section Descriptions.
Context {T : Type} {N : Num T} {TG : Trig T}.

Lemma child_name_dec (e : xml) tag :
  (match FirstChildElement e tag with Some c => Attribute c "name" | None => None end) = None <-> (forall n, ~ child_name e tag n).
Proof.
  destruct (FirstChildElement e tag) as [c|] eqn:E; [destruct (Attribute c "name") as [n|] eqn:A|]; split; intros X; auto.
  - discriminate.
  - exfalso. apply (X n). exists c. auto.
  - intros n (c' & E1 & A1). congruence.
  - intros n (c' & E1 & A1). congruence.
Qed.
Lemma child_name_get (e : xml) tag n :
  child_name e tag n <-> (match FirstChildElement e tag with Some c => Attribute c "name" | None => None end) = Some n.
Proof.
  unfold child_name. destruct (FirstChildElement e tag) as [c|]; split.
  - intros (c' & E1 & A1). injection E1 as ->. auto.
  - intros A. exists c. auto.
  - intros (c' & E1 & _). discriminate.
  - discriminate.
Qed.
Lemma own_name_get (e : xml) : own_name e (match Attribute e "name" with Some n => n | None => "" end).
Proof. unfold own_name. destruct (Attribute e "name"); auto. Qed.

(** ** the simulated joints of a simple transmission *)
Lemma sim_loop_spec (P : parsers T) (known : string -> bool) : forall els (t : simple T),
  let K n := known n = true in
  ((forall e n, In e els -> sim_joint K e n -> exists x, sim_value P e x) ->
     exists t' ns, simple_sim_loop P known els t = Some t' /\ sim_names K els ns /\ last_value P K (st_sim_red t) els (st_sim_red t') /\
       st_joints t' = st_joints t ++ ns /\ st_name t' = st_name t /\ st_actuators t' = st_actuators t /\ st_red t' = st_red t /\
       st_ts_init t' = st_ts_init t /\ st_start t' = st_start t /\ st_cal t' = st_cal t /\
       (els = [] -> st_use_sim t' = st_use_sim t) /\
       (forall pre e, els = pre ++ [e] -> (st_use_sim t' = true <-> exists n, sim_joint K e n))) /\
  ((exists e n, In e els /\ sim_joint K e n /\ forall x, ~ sim_value P e x) -> simple_sim_loop P known els t = None).
Proof.
  intros els. induction els as [|e els IH]; intros t K.
  - split.
    + intros _. exists t, []. rewrite app_nil_r. split; [reflexivity|]. split; [constructor|]. split; [apply last_none; auto|].
      repeat split; auto; intros; destruct pre; discriminate.
    + intros (e & n & [] & _).
  - assert (SKIP : forall u : simple T, (forall n, ~ sim_joint K e n) -> st_use_sim u = false ->
      st_joints u = st_joints t -> st_name u = st_name t -> st_actuators u = st_actuators t -> st_red u = st_red t ->
      st_ts_init u = st_ts_init t -> st_start u = st_start t -> st_cal u = st_cal t -> st_sim_red u = st_sim_red t ->
      simple_sim_loop P known (e :: els) t = simple_sim_loop P known els u ->
      ((forall e' n, In e' (e :: els) -> sim_joint K e' n -> exists x, sim_value P e' x) ->
       exists t' ns, simple_sim_loop P known (e :: els) t = Some t' /\ sim_names K (e :: els) ns /\ last_value P K (st_sim_red t) (e :: els) (st_sim_red t') /\
       st_joints t' = st_joints t ++ ns /\ st_name t' = st_name t /\ st_actuators t' = st_actuators t /\ st_red t' = st_red t /\
       st_ts_init t' = st_ts_init t /\ st_start t' = st_start t /\ st_cal t' = st_cal t /\
       (e :: els = [] -> st_use_sim t' = st_use_sim t) /\
       (forall pre e', e :: els = pre ++ [e'] -> (st_use_sim t' = true <-> exists n, sim_joint K e' n))) /\
      ((exists e' n, In e' (e :: els) /\ sim_joint K e' n /\ forall x, ~ sim_value P e' x) -> simple_sim_loop P known (e :: els) t = None)).
    { intros u NO U F1 F2 F3 F4 F5 F6 F7 F8 EQ. destruct (IH u) as [I1 I2]. rewrite EQ. split.
      - intros A. destruct I1 as (t' & ns & E & SN & LV & G1 & G2 & G3 & G4 & G5 & G6 & G7 & G8 & G9); [intros e' n Hin; apply A; now right|].
        exists t', ns. split; [exact E|]. split; [now apply sims_skip|]. split.
        { rewrite <- F8. destruct LV as [LN ->|pre e0 post n EE SJ SV LP].
          - apply last_none; auto. intros e' n [<-|Hin]; [apply NO|now apply LN].
          - apply (last_some P K (st_sim_red u) (e :: els) (st_sim_red t') (e :: pre) e0 post n); auto. now rewrite EE. }
        rewrite G1, F1, G2, F2, G3, F3, G4, F4, G5, F5, G6, F6, G7, F7. repeat (split; [reflexivity|]). split; [discriminate|].
        intros pre e' EE. destruct pre as [|x pre]; injection EE as -> ->.
        + rewrite (G8 eq_refl), U. split; [discriminate|]. intros (n & X). elim (NO n X).
        + now apply (G9 pre).
      - intros (e' & n & [<-|Hin] & SJ & NV); [elim (NO n SJ)|]. apply I2. eauto. }
    destruct (Attribute e "name") as [jn|] eqn:A.
    2:{ apply (SKIP (set_st_use_sim false t)); try reflexivity. intros n [X _]. congruence.
        cbn [simple_sim_loop]. now rewrite A. }
    destruct (known jn) eqn:KJ.
    2:{ apply (SKIP (set_st_use_sim false t)); try reflexivity. intros n [X Y]. unfold K in Y. congruence.
        cbn [simple_sim_loop]. now rewrite A, KJ. }
    assert (SJ : sim_joint K e jn) by (split; auto).
    cbn [simple_sim_loop]. rewrite A, KJ.
    destruct (Attribute e "simulated_reduction") as [s|] eqn:AS.
    2:{ split; auto. intros X. exfalso. destruct (X e jn (or_introl eq_refl) SJ) as (x & s & Y & _). congruence. }
    destruct (p_lexical P s) as [x|] eqn:PX.
    2:{ split; auto. intros X. exfalso. destruct (X e jn (or_introl eq_refl) SJ) as (x & s' & Y & Z). congruence. }
    assert (SV : sim_value P e x) by (exists s; auto).
    set (u := set_st_sim_red x (set_st_joints (st_joints (set_st_use_sim true t) ++ [jn]) (set_st_use_sim true t))).
    destruct (IH u) as [I1 I2]. split.
    + intros X. destruct I1 as (t' & ns & E & SN & LV & G1 & G2 & G3 & G4 & G5 & G6 & G7 & G8 & G9); [intros e' n Hin; apply X; now right|].
      exists t', (jn :: ns). split; [exact E|]. split; [now apply sims_take|]. split.
      { destruct LV as [LN EX|pre e0 post n EE SJ' SV' LP].
        - apply (last_some P K (st_sim_red t) (e :: els) (st_sim_red t') [] e els jn); auto. rewrite EX. exact SV.
        - apply (last_some P K (st_sim_red t) (e :: els) (st_sim_red t') (e :: pre) e0 post n); auto. now rewrite EE. }
      split; [rewrite G1; cbn; now rewrite <- app_assoc|]. repeat (split; [assumption|]). split; [discriminate|].
      intros pre e' EE. destruct pre as [|y pre]; injection EE as -> ->.
      * rewrite (G8 eq_refl). split; [eauto|reflexivity].
      * now apply (G9 pre).
    + intros (e' & n & [<-|Hin] & SJ' & NV).
      * elim (NV x). exact SV.
      * apply I2. eauto.
Qed.

(** ** C76 *)

(** What the description must say for a simple transmission to be usable. *)
Definition simple_valid (P : parsers T) (known : string -> Prop) (find : string -> option nat) (elt : xml) (jn an : string) (a : nat) (s : string) : Prop :=
  child_name elt "joint" jn /\ known jn /\ child_name elt "actuator" an /\ find an = Some a /\ reduction_text elt s /\
  (forall e n, In e (ChildElements elt "simulated_actuated_joint") -> sim_joint known e n -> exists x, sim_value P e x).
(** What it then holds.  [x0]: the value of an uninitialised member *)
Definition simple_holds (P : parsers T) (known : string -> Prop) (x0 : T) (elt : xml) (jn an s : string) (t : simple T) : Prop :=
  own_name elt (st_name t) /\ st_actuators t = [an] /\ st_red t = p_atof P s /\
  (exists ns, sim_names known (ChildElements elt "simulated_actuated_joint") ns /\ st_joints t = jn :: ns) /\
  last_value P known x0 (ChildElements elt "simulated_actuated_joint") (st_sim_red t) /\
  (st_use_sim t = true <-> exists pre e n, ChildElements elt "simulated_actuated_joint" = pre ++ [e] /\ sim_joint known e n).

Definition known_in (R : rview T) (n : string) : Prop := rv_joint R n <> None.

Lemma known_iff (R : rview T) n : known_in R n <-> (match rv_joint R n with Some _ => true | None => false end) = true.
Proof. unfold known_in. destruct (rv_joint R n); split; congruence. Qed.

Lemma sim_joint_ext K K' e n : (forall n, K n <-> K' n) -> sim_joint K e n <-> sim_joint K' e n.
Proof. unfold sim_joint. firstorder. Qed.
Lemma sim_names_ext K K' els ns : (forall n, K n <-> K' n) -> sim_names K els ns -> sim_names K' els ns.
Proof.
  intros E. induction 1; [constructor| |].
  - apply sims_take; auto. now apply (sim_joint_ext K K').
  - apply sims_skip; auto. intros n X. apply (H n). now apply (sim_joint_ext K K').
Qed.
Lemma last_value_ext (P : parsers T) K K' x0 els x : (forall n, K n <-> K' n) -> last_value P K x0 els x -> last_value P K' x0 els x.
Proof.
  intros E [A B|pre e post n A B C D].
  - apply last_none; auto. intros e n Hin X. apply (A e n Hin). now apply (sim_joint_ext K K').
  - apply (last_some P K' x0 els x pre e post n); auto.
    + now apply (sim_joint_ext K K').
    + intros e' n' Hin X. apply (D e' n' Hin). now apply (sim_joint_ext K K').
Qed.

Lemma reduction_get (P : parsers T) elt ael : FirstChildElement elt "actuator" = Some ael ->
  (exists s, reduction_text elt s /\
    (match FirstChildElement ael "mechanicalReduction" with Some _ => atof_child P ael "mechanicalReduction" | None => atof_child P elt "mechanicalReduction" end)
      = Ok (p_atof P s)) \/
  ((forall s, ~ reduction_text elt s) /\
    (match FirstChildElement ael "mechanicalReduction" with Some _ => atof_child P ael "mechanicalReduction" | None => atof_child P elt "mechanicalReduction" end) = UB).
Proof.
  intros E. unfold atof_child, deref, bind. destruct (FirstChildElement ael "mechanicalReduction") as [r|] eqn:F.
  - destruct (GetText r) as [s|] eqn:G.
    + left. exists s. split; auto. exists ael. split; auto. left. exists r. auto.
    + right. split; auto. intros s (ael' & E' & [(r' & F' & G')|(F' & _)]); congruence.
  - destruct (FirstChildElement elt "mechanicalReduction") as [r|] eqn:F2.
    + destruct (GetText r) as [s|] eqn:G.
      * left. exists s. split; auto. exists ael. split; auto. right. split; auto. exists r. auto.
      * right. split; auto. intros s (ael' & E' & [(r' & F' & G')|(_ & r' & F' & G')]); congruence.
    + right. split; auto. intros s (ael' & E' & [(r' & F' & G')|(_ & r' & F' & G')]); congruence.
Qed.
Lemma reduction_unique elt s s' : reduction_text elt s -> reduction_text elt s' -> s = s'.
Proof.
  intros (a & E & X) (a' & E' & X').
  destruct X as [(r & F & G)|(F & r & F2 & G)], X' as [(r' & F' & G')|(F' & r' & F2' & G')]; congruence.
Qed.

(** The initialisation Robot::initXml uses: a usable description is accepted, with exactly this content. *)
Theorem C76_accepts : forall (P : parsers T) (R : rview T) elt h g1 g2 b c jn an a s,
  simple_valid P (known_in R) (rv_actuator R) elt jn an a s ->
  exists t h', simple_initXml P R elt h (new_simple g1 g2 b c) = Ok (Some t, h') /\
    enabled a h h' /\ simple_holds P (known_in R) g2 elt jn an s t /\ st_ts_init t = b /\ st_start t = 0%Z /\ st_cal t = c.
Proof.
  intros P R elt h g1 g2 b c jn an a s (HJ & KJ & HA & FA & HR & HS).
  unfold simple_initXml. apply child_name_get in HJ. rewrite HJ. destruct (rv_joint R jn) as [u|] eqn:RJ; [|unfold known_in in KJ; congruence].
  destruct HA as (ael & EA & NA). rewrite EA, NA, FA.
  destruct (reduction_get P elt ael EA) as [(s' & HR' & ->)|(NR & _)]; [|elim (NR s HR)].
  rewrite (reduction_unique elt s' s HR' HR). cbn [bind].
  match goal with |- context [simple_sim_loop P ?k ?e ?t] => destruct (sim_loop_spec P k e t) as [I1 _] end.
  set (K := fun n : string => (match rv_joint R n with Some _ => true | None => false end) = true) in *.
  assert (EX : forall n, K n <-> known_in R n) by (intros n; unfold K; symmetry; apply known_iff).
  destruct I1 as (t' & ns & E & SN & LV & G1 & G2 & G3 & G4 & G5 & G6 & G7 & G8 & G9).
  { intros e n Hin SJ. apply (HS e n Hin). now apply (sim_joint_ext K (known_in R)). }
  rewrite E. exists t', (upd a (set_a_enable true) h). split; [reflexivity|]. split; [intros p; reflexivity|].
  split; [|auto]. split; [rewrite G2; apply own_name_get|]. split; [exact G3|]. split; [exact G4|]. split.
  { exists ns. split; [eapply sim_names_ext; eauto|]. exact G1. }
  split; [exact (last_value_ext P _ _ _ _ _ EX LV)|].
  destruct (ChildElements elt "simulated_actuated_joint") as [|e0 l0] using rev_ind.
  - rewrite (G8 eq_refl). split; [discriminate|]. intros (pre & e & n & X & _). destruct pre; discriminate.
  - rewrite (G9 l0 e0 eq_refl). split.
    + intros (n & SJ). exists l0, e0, n. split; auto. now apply (sim_joint_ext K (known_in R)).
    + intros (pre & e & n & X & SJ). apply app_inj_tail in X as [_ ->]. exists n. now apply (sim_joint_ext K (known_in R)).
Qed.

(** Only those are accepted; the call reads through NULL exactly if everything up to the reduction is fine and there is no
    reduction text; it never aborts. *)
Theorem C76_refuses : forall (P : parsers T) (R : rview T) elt h g1 g2 b c,
  (forall t h', simple_initXml P R elt h (new_simple g1 g2 b c) = Ok (Some t, h') ->
     exists jn an a s, simple_valid P (known_in R) (rv_actuator R) elt jn an a s) /\
  (forall h', simple_initXml P R elt h (new_simple g1 g2 b c) = Ok (None, h') ->
     h' = h \/ exists an a, child_name elt "actuator" an /\ rv_actuator R an = Some a /\ enabled a h h') /\
  (simple_initXml P R elt h (new_simple g1 g2 b c) = UB <->
     (exists jn an, child_name elt "joint" jn /\ known_in R jn /\ child_name elt "actuator" an /\ rv_actuator R an <> None) /\
     forall s, ~ reduction_text elt s) /\
  simple_initXml P R elt h (new_simple g1 g2 b c) <> Abort /\ simple_initXml P R elt h (new_simple g1 g2 b c) <> Hang.
Proof.
  intros P R elt h g1 g2 b c.
  assert (NEG : forall A : Prop, ((exists jn an, child_name elt "joint" jn /\ known_in R jn /\ child_name elt "actuator" an /\ rv_actuator R an <> None) -> False) ->
    (A <-> (exists jn an, child_name elt "joint" jn /\ known_in R jn /\ child_name elt "actuator" an /\ rv_actuator R an <> None) /\ forall s, ~ reduction_text elt s) <-> ~ A) by tauto.
  assert (SIMPLE : simple_initXml P R elt h (new_simple g1 g2 b c) = Ok (None, h) ->
    ((exists jn an, child_name elt "joint" jn /\ known_in R jn /\ child_name elt "actuator" an /\ rv_actuator R an <> None) -> False) ->
    (forall t h', simple_initXml P R elt h (new_simple g1 g2 b c) = Ok (Some t, h') ->
     exists jn an a s, simple_valid P (known_in R) (rv_actuator R) elt jn an a s) /\
    (forall h', simple_initXml P R elt h (new_simple g1 g2 b c) = Ok (None, h') ->
     h' = h \/ exists an a, child_name elt "actuator" an /\ rv_actuator R an = Some a /\ enabled a h h') /\
    (simple_initXml P R elt h (new_simple g1 g2 b c) = UB <->
     (exists jn an, child_name elt "joint" jn /\ known_in R jn /\ child_name elt "actuator" an /\ rv_actuator R an <> None) /\
     forall s, ~ reduction_text elt s) /\
    simple_initXml P R elt h (new_simple g1 g2 b c) <> Abort /\ simple_initXml P R elt h (new_simple g1 g2 b c) <> Hang).
  { intros E X. rewrite E. split; [discriminate|]. split; [intros h' Y; left; congruence|]. split; [apply NEG; [exact X|discriminate]|]. split; discriminate. }
  destruct (match FirstChildElement elt "joint" with Some jel => Attribute jel "name" | None => None end) as [jn|] eqn:EJ.
  2:{ apply SIMPLE; [unfold simple_initXml; now rewrite EJ|]. intros (jn & an & X & _). elim (proj1 (child_name_dec _ _) EJ jn X). }
  destruct (rv_joint R jn) as [u|] eqn:RJ.
  2:{ apply SIMPLE; [unfold simple_initXml; now rewrite EJ, RJ|]. intros (jn' & an & X & Y & _). apply child_name_get in X.
      assert (jn' = jn) by congruence. subst. now apply Y. }
  destruct (FirstChildElement elt "actuator") as [ael|] eqn:EA.
  2:{ apply SIMPLE; [unfold simple_initXml; now rewrite EJ, RJ, EA|]. intros (jn' & an & _ & _ & (x & X & _) & _). congruence. }
  destruct (Attribute ael "name") as [an|] eqn:NA.
  2:{ apply SIMPLE; [unfold simple_initXml; now rewrite EJ, RJ, EA, NA|]. intros (jn' & an & _ & _ & (x & X & Y) & _). congruence. }
  destruct (rv_actuator R an) as [a|] eqn:FA.
  2:{ apply SIMPLE; [unfold simple_initXml; now rewrite EJ, RJ, EA, NA, FA|]. intros (jn' & an' & _ & _ & (x & X & Y) & Z). apply Z. congruence. }
  assert (PRE : exists jn an, child_name elt "joint" jn /\ known_in R jn /\ child_name elt "actuator" an /\ rv_actuator R an <> None).
  { exists jn, an. split; [now apply child_name_get|]. split; [unfold known_in; congruence|]. split; [exists ael; auto|congruence]. }
  destruct (reduction_get P elt ael EA) as [(s & HR & ER)|(NR & ER)].
  - assert (DEC : (forall e n, In e (ChildElements elt "simulated_actuated_joint") -> sim_joint (known_in R) e n -> exists x, sim_value P e x) \/
                  (exists e n, In e (ChildElements elt "simulated_actuated_joint") /\ sim_joint (known_in R) e n /\ forall x, ~ sim_value P e x)).
    { generalize (ChildElements elt "simulated_actuated_joint"). intros els. induction els as [|e els [IH|(e' & n & Hin & Q)]].
      - left. intros e n [].
      - assert (D : (exists x, sim_value P e x) \/ forall x, ~ sim_value P e x).
        { unfold sim_value. destruct (Attribute e "simulated_reduction") as [s0|]; [destruct (p_lexical P s0) as [x|] eqn:PX|].
          - left. eauto.
          - right. intros x (s' & X & Y). congruence.
          - right. intros x (s' & X & Y). congruence. }
        destruct D as [D|D].
        + left. intros e' n [<-|Hin]; eauto.
        + destruct (Attribute e "name") as [n|] eqn:An; [destruct (rv_joint R n) as [?|] eqn:Rn|].
          * right. exists e, n. split; [now left|]. split; auto. split; auto. unfold known_in. congruence.
          * left. intros e' n' [<-|Hin] SJ; eauto. exfalso. destruct SJ as [X Y]. apply Y. congruence.
          * left. intros e' n' [<-|Hin] SJ; eauto. exfalso. destruct SJ as [X Y]. congruence.
      - right. exists e', n. split; [now right|]. exact Q. }
    destruct DEC as [OK|BAD].
    + assert (V : simple_valid P (known_in R) (rv_actuator R) elt jn an a s).
      { split; [now apply child_name_get|]. split; [unfold known_in; congruence|]. split; [exists ael; auto|]. auto. }
      destruct (C76_accepts P R elt h g1 g2 b c jn an a s V) as (t & h' & E & _). rewrite E.
      split; [intros; exists jn, an, a, s; exact V|]. split; [discriminate|]. split; [|split; discriminate].
      split; [discriminate|]. intros [_ Y]. elim (Y s HR).
    + assert (E : simple_initXml P R elt h (new_simple g1 g2 b c) = Ok (None, upd a (set_a_enable true) h)).
      { unfold simple_initXml. rewrite EJ, RJ, EA, NA, FA, ER. cbn [bind]. f_equal. f_equal.
        match goal with |- simple_sim_loop P ?k ?e ?t = None => destruct (sim_loop_spec P k e t) as [_ I2] end.
        apply I2. destruct BAD as (e & n & Hin & [X Y] & Z). exists e, n. split; auto. split; auto. split; auto. now apply known_iff. }
      rewrite E. split; [discriminate|]. split.
      { intros h' X. injection X as <-. right. exists an, a. split; [exists ael; auto|]. split; auto. intros p. reflexivity. }
      split; [|split; discriminate]. split; [discriminate|]. intros [_ Y]. elim (Y s HR).
  - assert (E : simple_initXml P R elt h (new_simple g1 g2 b c) = UB).
    { unfold simple_initXml. rewrite EJ, RJ, EA, NA, FA, ER. reflexivity. }
    rewrite E. split; [discriminate|]. split; [discriminate|]. split; [tauto|]. split; discriminate.
Qed.

(** The other initialisation (without a robot): it asks nobody whether the names exist and reads the reduction only directly
    below the transmission element; a description giving it inside the actuator element makes it read through NULL. *)
Theorem C76_without_robot : forall (P : parsers T) elt g1 g2 b c jn an,
  child_name elt "joint" jn -> child_name elt "actuator" an ->
  (forall s, child_text elt "mechanicalReduction" s ->
     (forall e n, In e (ChildElements elt "simulated_actuated_joint") -> named e n -> exists x, sim_value P e x) ->
     exists t, simple_initXml1 P elt (new_simple g1 g2 b c) = Ok (Some t) /\ simple_holds P (fun _ => True) g2 elt jn an s t) /\
  ((forall s, ~ child_text elt "mechanicalReduction" s) -> simple_initXml1 P elt (new_simple g1 g2 b c) = UB).
Proof.
  intros P elt g1 g2 b c jn an HJ HA. apply child_name_get in HJ. apply child_name_get in HA. split.
  - intros s (r & F & G) OK. unfold simple_initXml1, atof_child. rewrite HJ, HA, F. cbn [deref bind]. rewrite G. cbn [deref bind].
    match goal with |- context [simple_sim_loop P ?k ?e ?t] => destruct (sim_loop_spec P k e t) as [I1 _] end.
    set (K := fun n : string => true = true) in *.
    assert (EX : forall n, K n <-> True) by (intros n; unfold K; tauto).
    destruct I1 as (t' & ns & E & SN & LV & G1 & G2 & G3 & G4 & G5 & G6 & G7 & G8 & G9).
    { intros e n Hin [SJ _]. exact (OK e n Hin SJ). }
    rewrite E. exists t'. split; [reflexivity|]. split; [rewrite G2; apply own_name_get|]. split; [exact G3|]. split; [exact G4|]. split.
    { exists ns. split; [exact (sim_names_ext K _ _ _ EX SN)|]. exact G1. }
    split; [exact (last_value_ext P _ _ _ _ _ EX LV)|].
    destruct (ChildElements elt "simulated_actuated_joint") as [|e0 l0] using rev_ind.
    + rewrite (G8 eq_refl). split; [discriminate|]. intros (pre & e & n & X & _). destruct pre; discriminate.
    + rewrite (G9 l0 e0 eq_refl). split.
      * intros (n & SJ). exists l0, e0, n. split; auto. now apply (sim_joint_ext K (fun _ => True)).
      * intros (pre & e & n & X & SJ). apply app_inj_tail in X as [_ ->]. exists n. now apply (sim_joint_ext K (fun _ => True)).
  - intros NO. unfold simple_initXml1, atof_child. rewrite HJ, HA.
    destruct (FirstChildElement elt "mechanicalReduction") as [r|] eqn:F; cbn [deref bind]; auto.
    destruct (GetText r) as [s|] eqn:G; cbn [deref bind]; auto. elim (NO s). exists r. auto.
Qed.

(** ** C77 *)
Local Open Scope num_scope.

(** A usable belt description: besides joint, actuator and reduction, a compensator element with six attributes. *)
Record belt_decl := mkBeltDecl { bd_red : string; bd_kbelt : string; bd_mass : string; bd_kd : string; bd_lmotor : string; bd_ljoint : string; bd_lcombined : string }.
Definition compensator (elt : xml) (d : belt_decl) : Prop :=
  exists c, FirstChildElement elt "compensator" = Some c /\ Attribute c "k_belt" = Some (bd_kbelt d) /\ Attribute c "mass_motor" = Some (bd_mass d) /\
    Attribute c "kd_motor" = Some (bd_kd d) /\ Attribute c "lambda_motor" = Some (bd_lmotor d) /\
    Attribute c "lambda_joint" = Some (bd_ljoint d) /\ Attribute c "lambda_combined" = Some (bd_lcombined d).
Definition belt_valid (known : string -> Prop) (find : string -> option nat) (elt : xml) (jn an : string) (a : nat) (d : belt_decl) : Prop :=
  child_name elt "joint" jn /\ known jn /\ child_name elt "actuator" an /\ find an = Some a /\
  child_text elt "mechanicalReduction" (bd_red d) /\ compensator elt d.
(** What the transmission then holds: the declared numbers, the belt's compliance (zero if the stiffness is not positive), the
    time constant of the motor mass on the belt, and estimators which are all at zero. *)
Definition belt_holds (P : parsers T) (elt : xml) (jn an : string) (d : belt_decl) (t : belt T) : Prop :=
  own_name elt (bt_name t) /\ bt_joints t = [jn] /\ bt_actuators t = [an] /\ bt_red t = p_atof P (bd_red d) /\
  bt_kd t = p_atof P (bd_kd d) /\ bt_lmotor t = p_atof P (bd_lmotor d) /\ bt_ljoint t = p_atof P (bd_ljoint d) /\ bt_lcombo t = p_atof P (bd_lcombined d) /\
  ((nltb nzero (p_atof P (bd_kbelt d)) = true /\ bt_compl t = nofZ 1 / p_atof P (bd_kbelt d)) \/
   (nltb nzero (p_atof P (bd_kbelt d)) = false /\ bt_compl t = nzero)) /\
  bt_tau t = nsqrt (p_atof P (bd_mass d) * bt_compl t).
Definition belt_zero (t : belt T) : Prop :=
  bt_last_ts t = 0%Z /\ bt_bts t = 0%Z /\
  Forall (fun x => x = nzero) [bt_mpos t; bt_mvel t; bt_j1pos t; bt_j1vel t; bt_j1acc t; bt_dpos t; bt_dvel t; bt_dacc t; bt_jpos t; bt_jvel t;
    bt_dmvel t; bt_damp t; bt_bhalf t; bt_bforce t; bt_bmpos t; bt_bmvel t; bt_bmacc t; bt_bjpos t; bt_bjvel t].

Lemma belt_params_ok (P : parsers T) elt (t : belt T) d : child_text elt "mechanicalReduction" (bd_red d) -> compensator elt d ->
  exists t', belt_params P elt t = Ok (Some t') /\ belt_zero t' /\ bt_name t' = bt_name t /\ bt_joints t' = bt_joints t /\ bt_actuators t' = bt_actuators t /\
    bt_red t' = p_atof P (bd_red d) /\
    bt_kd t' = p_atof P (bd_kd d) /\ bt_lmotor t' = p_atof P (bd_lmotor d) /\ bt_ljoint t' = p_atof P (bd_ljoint d) /\ bt_lcombo t' = p_atof P (bd_lcombined d) /\
    ((nltb nzero (p_atof P (bd_kbelt d)) = true /\ bt_compl t' = nofZ 1 / p_atof P (bd_kbelt d)) \/
     (nltb nzero (p_atof P (bd_kbelt d)) = false /\ bt_compl t' = nzero)) /\
    bt_tau t' = nsqrt (p_atof P (bd_mass d) * bt_compl t').
Proof.
  intros (r & F & G) (c & FC & A1 & A2 & A3 & A4 & A5 & A6). unfold belt_params. rewrite F. cbn [deref bind]. rewrite G. cbn [deref bind].
  rewrite FC, A1, A2, A3, A4, A5, A6. eexists. split; [reflexivity|]. split; [repeat constructor|]. repeat (split; [reflexivity|]). split; [|reflexivity].
  cbn. destruct (nltb nzero (p_atof P (bd_kbelt d))); auto.
Qed.
Lemma belt_params_cases (P : parsers T) elt (t : belt T) :
  (exists d, child_text elt "mechanicalReduction" (bd_red d) /\ compensator elt d) \/
  ((exists s, child_text elt "mechanicalReduction" s) /\ (forall d, ~ compensator elt d) /\ belt_params P elt t = Ok None) \/
  ((forall s, ~ child_text elt "mechanicalReduction" s) /\ belt_params P elt t = UB).
Proof.
  unfold belt_params. destruct (FirstChildElement elt "mechanicalReduction") as [r|] eqn:F; cbn [deref bind].
  2:{ right; right. split; auto. intros s (r & X & _). congruence. }
  destruct (GetText r) as [s|] eqn:G; cbn [deref bind].
  2:{ right; right. split; auto. intros s (r' & X & Y). congruence. }
  assert (TX : child_text elt "mechanicalReduction" s) by (exists r; auto).
  destruct (FirstChildElement elt "compensator") as [c|] eqn:FC.
  2:{ right; left. split; [eauto|]. split; auto. intros d (c & X & _). congruence. }
  destruct (Attribute c "k_belt") as [x1|] eqn:A1; [|right; left; split; [eauto|]; split; auto; intros d (c' & Q & Q1 & Q2 & Q3 & Q4 & Q5 & Q6); congruence].
  destruct (Attribute c "mass_motor") as [x2|] eqn:A2; [|right; left; split; [eauto|]; split; auto; intros d (c' & Q & Q1 & Q2 & Q3 & Q4 & Q5 & Q6); congruence].
  destruct (Attribute c "kd_motor") as [x3|] eqn:A3; [|right; left; split; [eauto|]; split; auto; intros d (c' & Q & Q1 & Q2 & Q3 & Q4 & Q5 & Q6); congruence].
  destruct (Attribute c "lambda_motor") as [x4|] eqn:A4; [|right; left; split; [eauto|]; split; auto; intros d (c' & Q & Q1 & Q2 & Q3 & Q4 & Q5 & Q6); congruence].
  destruct (Attribute c "lambda_joint") as [x5|] eqn:A5; [|right; left; split; [eauto|]; split; auto; intros d (c' & Q & Q1 & Q2 & Q3 & Q4 & Q5 & Q6); congruence].
  destruct (Attribute c "lambda_combined") as [x6|] eqn:A6; [|right; left; split; [eauto|]; split; auto; intros d (c' & Q & Q1 & Q2 & Q3 & Q4 & Q5 & Q6); congruence].
  left. exists (mkBeltDecl s x1 x2 x3 x4 x5 x6). split; auto. exists c. repeat split; auto.
Qed.

Theorem C77_accepts : forall (P : parsers T) (R : rview T) elt h (t0 : belt T) jn an a d,
  bt_joints t0 = [] -> bt_actuators t0 = [] -> belt_valid (known_in R) (rv_actuator R) elt jn an a d ->
  exists t h', belt_initXml P R elt h t0 = Ok (Some t, h') /\ enabled a h h' /\ belt_holds P elt jn an d t /\ belt_zero t.
Proof.
  intros P R elt h t0 jn an a d J0 A0 (HJ & KJ & HA & FA & HR & HC).
  unfold belt_initXml. apply child_name_get in HJ. apply child_name_get in HA. rewrite HJ, HA.
  destruct (rv_joint R jn) as [u|] eqn:RJ; [|unfold known_in in KJ; congruence]. rewrite FA.
  match goal with |- context [belt_params P elt ?t] => destruct (belt_params_ok P elt t d HR HC) as (t' & E & Z & N1 & N2 & N3 & REST) end.
  rewrite E. cbn [bind]. exists t', (upd a (set_a_enable true) h). split; [reflexivity|]. split; [intros p; reflexivity|]. split; [|exact Z].
  split; [rewrite N1; apply own_name_get|]. split; [rewrite N2; cbn; now rewrite J0|]. split; [rewrite N3; cbn; now rewrite A0|]. exact REST.
Qed.
Theorem C77_refuses : forall (P : parsers T) (R : rview T) elt h (t0 : belt T),
  (forall t h', belt_initXml P R elt h t0 = Ok (Some t, h') -> exists jn an a d, belt_valid (known_in R) (rv_actuator R) elt jn an a d) /\
  (forall h', belt_initXml P R elt h t0 = Ok (None, h') ->
     h' = h \/ exists an a, child_name elt "actuator" an /\ rv_actuator R an = Some a /\ enabled a h h') /\
  (belt_initXml P R elt h t0 = UB <->
     (exists jn an, child_name elt "joint" jn /\ known_in R jn /\ child_name elt "actuator" an /\ rv_actuator R an <> None) /\
     forall s, ~ child_text elt "mechanicalReduction" s) /\
  belt_initXml P R elt h t0 <> Abort /\ belt_initXml P R elt h t0 <> Hang.
Proof.
  intros P R elt h t0.
  set (PRE := exists jn an, child_name elt "joint" jn /\ known_in R jn /\ child_name elt "actuator" an /\ rv_actuator R an <> None).
  assert (SIMPLE : belt_initXml P R elt h t0 = Ok (None, h) -> ~ PRE ->
    (forall t h', belt_initXml P R elt h t0 = Ok (Some t, h') -> exists jn an a d, belt_valid (known_in R) (rv_actuator R) elt jn an a d) /\
    (forall h', belt_initXml P R elt h t0 = Ok (None, h') ->
       h' = h \/ exists an a, child_name elt "actuator" an /\ rv_actuator R an = Some a /\ enabled a h h') /\
    (belt_initXml P R elt h t0 = UB <-> PRE /\ forall s, ~ child_text elt "mechanicalReduction" s) /\
    belt_initXml P R elt h t0 <> Abort /\ belt_initXml P R elt h t0 <> Hang).
  { intros E X. rewrite E. split; [discriminate|]. split; [intros h' Y; left; congruence|]. split; [|split; discriminate]. split; [discriminate|tauto]. }
  destruct (match FirstChildElement elt "joint" with Some jel => Attribute jel "name" | None => None end) as [jn|] eqn:EJ.
  2:{ apply SIMPLE; [unfold belt_initXml; now rewrite EJ|]. intros (jn & an & X & _). elim (proj1 (child_name_dec _ _) EJ jn X). }
  destruct (rv_joint R jn) as [u|] eqn:RJ.
  2:{ apply SIMPLE; [unfold belt_initXml; now rewrite EJ, RJ|]. intros (jn' & an & X & Y & _). apply child_name_get in X.
      assert (jn' = jn) by congruence. subst. now apply Y. }
  destruct (match FirstChildElement elt "actuator" with Some jel => Attribute jel "name" | None => None end) as [an|] eqn:EA.
  2:{ apply SIMPLE; [unfold belt_initXml; now rewrite EJ, RJ, EA|]. intros (jn' & an & _ & _ & X & _). elim (proj1 (child_name_dec _ _) EA an X). }
  destruct (rv_actuator R an) as [a|] eqn:FA.
  2:{ apply SIMPLE; [unfold belt_initXml; now rewrite EJ, RJ, EA, FA|]. intros (jn' & an' & _ & _ & X & Z). apply child_name_get in X. apply Z. congruence. }
  apply child_name_get in EJ. apply child_name_get in EA.
  assert (HP : PRE). { exists jn, an. split; [exact EJ|]. split; [unfold known_in; congruence|]. split; [exact EA|congruence]. }
  assert (RUN : belt_initXml P R elt h t0 = do r <- belt_params P elt (set_bt_actuators (bt_actuators (set_bt_joints (bt_joints (set_bt_name (match Attribute elt "name" with Some n => n | None => "" end) t0) ++ [jn]) (set_bt_name (match Attribute elt "name" with Some n => n | None => "" end) t0)) ++ [an]) (set_bt_joints (bt_joints (set_bt_name (match Attribute elt "name" with Some n => n | None => "" end) t0) ++ [jn]) (set_bt_name (match Attribute elt "name" with Some n => n | None => "" end) t0))); Ok (r, upd a (set_a_enable true) h)).
  { apply child_name_get in EJ. apply child_name_get in EA. unfold belt_initXml. rewrite EJ, RJ, EA, FA. reflexivity. }
  match type of RUN with context [belt_params P elt ?t] => set (tt := t) in *; destruct (belt_params_cases P elt tt) as [(d & TX & C)|[(TX & NC & E)|(NT & E)]] end.
  - destruct (belt_params_ok P elt tt d TX C) as (t' & E & _). rewrite E in RUN. cbn [bind] in RUN. rewrite RUN.
    split; [intros _ _ _; exists jn, an, a, d; repeat split; auto; unfold known_in; congruence|]. split; [discriminate|]. split; [|split; discriminate].
    split; [discriminate|]. intros [_ Y]. elim (Y _ TX).
  - rewrite E in RUN. cbn [bind] in RUN. rewrite RUN. split; [discriminate|]. split.
    { intros h' X. injection X as <-. right. exists an, a. split; [exact EA|]. split; auto. intros p. reflexivity. }
    split; [|split; discriminate]. split; [discriminate|]. intros [_ Y]. destruct TX as (s & TX). elim (Y s TX).
  - rewrite E in RUN. cbn [bind] in RUN. rewrite RUN. split; [discriminate|]. split; [discriminate|]. split; [tauto|]. split; discriminate.
Qed.
(** Without a robot: the same numbers; a missing actuator name is read through NULL instead of being refused. *)
Theorem C77_without_robot : forall (P : parsers T) elt (t0 : belt T) jn,
  bt_joints t0 = [] -> bt_actuators t0 = [] -> child_name elt "joint" jn ->
  (forall an d, child_name elt "actuator" an -> child_text elt "mechanicalReduction" (bd_red d) -> compensator elt d ->
     exists t, belt_initXml1 P elt t0 = Ok (Some t) /\ belt_holds P elt jn an d t /\ belt_zero t) /\
  ((forall an, ~ child_name elt "actuator" an) -> belt_initXml1 P elt t0 = UB).
Proof.
  intros P elt t0 jn J0 A0 HJ. apply child_name_get in HJ. split.
  - intros an d HA HR HC. unfold belt_initXml1. apply child_name_get in HA. rewrite HJ, HA. cbn [deref bind].
    match goal with |- context [belt_params P elt ?t] => destruct (belt_params_ok P elt t d HR HC) as (t' & E & Z & N1 & N2 & N3 & REST) end.
    rewrite E. exists t'. split; [reflexivity|]. split; [|exact Z].
    split; [rewrite N1; apply own_name_get|]. split; [rewrite N2; cbn; now rewrite J0|]. split; [rewrite N3; cbn; now rewrite A0|]. exact REST.
  - intros NO. unfold belt_initXml1. rewrite HJ. now rewrite (proj2 (child_name_dec elt "actuator") NO).
Qed.

(** ** C78 *)
Definition gaps (elt : xml) := ChildElements elt "gap_joint".
Definition passives (elt : xml) := ChildElements elt "passive_joint".
Definition simulateds (elt : xml) := ChildElements elt "simulated_actuated_joint".
(** all elements of the description are readable, and the joints they name are [js] *)
Definition gripper_readable (P : parsers T) (elt : xml) (js : list string) : Prop :=
  (forall e, In e (gaps elt) -> gap_readable P e) /\
  (forall e, In e (simulateds elt) -> exists x, value P e "simulated_reduction" x) /\
  exists ga pa si, Forall2 named (gaps elt) ga /\ Forall2 named (passives elt) pa /\ Forall2 sim_adds (simulateds elt) si /\
    js = ga ++ pa ++ List.concat si.
(** The geometry is that of the last gap_joint element, with the default of the PR2 gripper for what it leaves out;
    without a gap_joint element every number stays indeterminate ([x0]). *)
Definition gripper_geometry (P : parsers T) (x0 : T) (elt : xml) (t : gripper T) : Prop :=
  (gaps elt = [] /\ gr_gap_joint t = "" /\
     Forall (fun x => x = x0) [gr_red t; gr_screw t; gr_gear t; gr_theta0 t; gr_phi0 t; gr_t0 t; gr_L0 t; gr_h t; gr_a t; gr_b t; gr_r t]) \/
  (exists pre e, gaps elt = pre ++ [e] /\ named e (gr_gap_joint t) /\ value P e "mechanical_reduction" (gr_red t) /\
     optional_value P e "screw_reduction" (ntwo / nofZ 1000) (gr_screw t) /\ optional_value P e "gear_ratio" (ndec 2916 2) (gr_gear t) /\
     optional_value P e "theta0" (ndec 297571 5 * npi / nofZ 180) (gr_theta0 t) /\ optional_value P e "phi0" (ndec 2998717 5 * npi / nofZ 180) (gr_phi0 t) /\
     optional_value P e "t0" (- ndec 19543 5 / nofZ 1000) (gr_t0 t) /\ optional_value P e "L0" (ndec 3470821 5 / nofZ 1000) (gr_L0 t) /\
     optional_value P e "h" (ndec 5200 3 / nofZ 1000) (gr_h t) /\ optional_value P e "a" (ndec 6756801 5 / nofZ 1000) (gr_a t) /\
     optional_value P e "b" (ndec 4897193 5 / nofZ 1000) (gr_b t) /\ optional_value P e "r" (ndec 9150000 5 / nofZ 1000) (gr_r t)).
Definition gripper_holds (P : parsers T) (x0 : T) (elt : xml) (an : string) (js : list string) (t : gripper T) : Prop :=
  own_name elt (gr_name t) /\ gr_actuators t = [an] /\ gr_joints t = js /\ Forall2 named (passives elt) (gr_passive t) /\
  gripper_geometry P x0 elt t /\
  (gr_has_passive t = true <-> exists e q, In e (simulateds elt) /\ Attribute e "passive_actuated_joint" = Some q) /\
  ((simulateds elt = [] /\ gr_sim_red t = x0) \/ exists pre e, simulateds elt = pre ++ [e] /\ value P e "simulated_reduction" (gr_sim_red t)).

(** the members no part of the loops touches *)
Definition same_rest_g (t t' : gripper T) : Prop :=
  gr_name t' = gr_name t /\ gr_actuators t' = gr_actuators t /\ gr_use_sim t' = gr_use_sim t /\ gr_ts_init t' = gr_ts_init t /\ gr_start t' = gr_start t /\ gr_cal t' = gr_cal t.
Definition numbers (t : gripper T) : string * list T := (gr_gap_joint t, [gr_red t; gr_screw t; gr_gear t; gr_theta0 t; gr_phi0 t; gr_t0 t; gr_L0 t; gr_h t; gr_a t; gr_b t; gr_r t]).

Lemma coef_opt (P : parsers T) e attr d x : coef P e attr d = Some x <-> optional_value P e attr d x.
Proof.
  unfold coef, optional_value. destruct (Attribute e attr) as [s|].
  - split; [intros X; right; eauto|]. intros [[X _]|(s' & X & Y)]; congruence.
  - split; [intros X; left; split; congruence|]. intros [[_ X]|(s' & X & Y)]; congruence.
Qed.
Lemma coef_none (P : parsers T) e attr d : coef P e attr d = None -> ~ (Attribute e attr = None \/ exists x, value P e attr x).
Proof.
  unfold coef, value. destruct (Attribute e attr) as [s|]; [|discriminate]. intros X [Y|(x & s' & Y & Z)]; congruence.
Qed.
Lemma gap_step (P : parsers T) e (t : gripper T) :
  (gap_readable P e -> exists t' n, gripper_gap P e t = Some t' /\ named e n /\ gr_joints t' = gr_joints t ++ [n] /\ same_rest_g t t' /\
     gr_has_passive t' = gr_has_passive t /\ gr_passive t' = gr_passive t /\ gr_sim_red t' = gr_sim_red t /\
     named e (gr_gap_joint t') /\ value P e "mechanical_reduction" (gr_red t') /\
     optional_value P e "screw_reduction" (ntwo / nofZ 1000) (gr_screw t') /\ optional_value P e "gear_ratio" (ndec 2916 2) (gr_gear t') /\
     optional_value P e "theta0" (ndec 297571 5 * npi / nofZ 180) (gr_theta0 t') /\ optional_value P e "phi0" (ndec 2998717 5 * npi / nofZ 180) (gr_phi0 t') /\
     optional_value P e "t0" (- ndec 19543 5 / nofZ 1000) (gr_t0 t') /\ optional_value P e "L0" (ndec 3470821 5 / nofZ 1000) (gr_L0 t') /\
     optional_value P e "h" (ndec 5200 3 / nofZ 1000) (gr_h t') /\ optional_value P e "a" (ndec 6756801 5 / nofZ 1000) (gr_a t') /\
     optional_value P e "b" (ndec 4897193 5 / nofZ 1000) (gr_b t') /\ optional_value P e "r" (ndec 9150000 5 / nofZ 1000) (gr_r t')) /\
  (gripper_gap P e t <> None -> gap_readable P e).
Proof.
  assert (OPT : forall attr d, In attr gap_coefficients -> gap_readable P e -> exists x, coef P e attr d = Some x /\ optional_value P e attr d x).
  { intros attr d Hin (_ & _ & A). destruct (coef P e attr d) as [x|] eqn:C; [exists x; split; auto; now apply coef_opt|].
    elim (coef_none P e attr d C). now apply A. }
  split.
  - intros Hr. destruct Hr as ((n & HN) & (x & s & HS & HX) & HC). assert (Hr : gap_readable P e) by (repeat split; eauto; exists x; exists s; auto).
    unfold gripper_gap. unfold named in HN. rewrite HN, HS, HX.
    destruct (OPT "screw_reduction" (ntwo / nofZ 1000)) as (y1 & -> & O1); [cbn; tauto|auto|].
    destruct (OPT "gear_ratio" (ndec 2916 2)) as (y2 & -> & O2); [cbn; tauto|auto|].
    destruct (OPT "theta0" (ndec 297571 5 * npi / nofZ 180)) as (y3 & -> & O3); [cbn; tauto|auto|].
    destruct (OPT "phi0" (ndec 2998717 5 * npi / nofZ 180)) as (y4 & -> & O4); [cbn; tauto|auto|].
    destruct (OPT "t0" (- ndec 19543 5 / nofZ 1000)) as (y5 & -> & O5); [cbn; tauto|auto|].
    destruct (OPT "L0" (ndec 3470821 5 / nofZ 1000)) as (y6 & -> & O6); [cbn; tauto|auto|].
    destruct (OPT "h" (ndec 5200 3 / nofZ 1000)) as (y7 & -> & O7); [cbn; tauto|auto|].
    destruct (OPT "a" (ndec 6756801 5 / nofZ 1000)) as (y8 & -> & O8); [cbn; tauto|auto|].
    destruct (OPT "b" (ndec 4897193 5 / nofZ 1000)) as (y9 & -> & O9); [cbn; tauto|auto|].
    destruct (OPT "r" (ndec 9150000 5 / nofZ 1000)) as (y10 & -> & O10); [cbn; tauto|auto|].
    eexists. exists n. split; [reflexivity|]. split; [exact HN|]. split; [reflexivity|]. split; [repeat split|]. do 3 (split; [reflexivity|]).
    split; [exact HN|]. split; [exists s; auto|]. repeat (split; [assumption|]). assumption.
  - unfold gripper_gap. destruct (Attribute e "name") as [n|] eqn:HN; [|congruence].
    destruct (Attribute e "mechanical_reduction") as [s|] eqn:HS; [|congruence]. destruct (p_lexical P s) as [x|] eqn:HX; [|congruence].
    intros X. split; [exists n; exact HN|]. split; [exists x, s; auto|]. intros attr Hin.
    assert (D : forall d, coef P e attr d <> None -> Attribute e attr = None \/ exists x, value P e attr x).
    { intros d. unfold coef, value. destruct (Attribute e attr) as [s'|]; auto. destruct (p_lexical P s') as [x'|] eqn:PX; [|congruence]. intros _. right. eauto. }
    revert X.
    destruct (coef P e "screw_reduction" (ntwo / nofZ 1000)) eqn:C1; [|congruence].
    destruct (coef P e "gear_ratio" (ndec 2916 2)) eqn:C2; [|congruence].
    destruct (coef P e "theta0" (ndec 297571 5 * npi / nofZ 180)) eqn:C3; [|congruence].
    destruct (coef P e "phi0" (ndec 2998717 5 * npi / nofZ 180)) eqn:C4; [|congruence].
    destruct (coef P e "t0" (- ndec 19543 5 / nofZ 1000)) eqn:C5; [|congruence].
    destruct (coef P e "L0" (ndec 3470821 5 / nofZ 1000)) eqn:C6; [|congruence].
    destruct (coef P e "h" (ndec 5200 3 / nofZ 1000)) eqn:C7; [|congruence].
    destruct (coef P e "a" (ndec 6756801 5 / nofZ 1000)) eqn:C8; [|congruence].
    destruct (coef P e "b" (ndec 4897193 5 / nofZ 1000)) eqn:C9; [|congruence].
    destruct (coef P e "r" (ndec 9150000 5 / nofZ 1000)) eqn:C10; [|congruence].
    intros _. cbn in Hin. destruct Hin as [E|[E|[E|[E|[E|[E|[E|[E|[E|[E|[]]]]]]]]]]]; subst attr; eapply D; first [rewrite C1|rewrite C2|rewrite C3|rewrite C4|rewrite C5|rewrite C6|rewrite C7|rewrite C8|rewrite C9|rewrite C10]; discriminate.
Qed.

Lemma each_none {S} (f : xml -> S -> option S) : forall els t e, In e els -> (forall t, f e t = None) -> each f els t = None.
Proof.
  induction els as [|x els IH]; intros t e [] NO; cbn.
  - subst. now rewrite NO.
  - destruct (f x t); eauto.
Qed.
Lemma each_snoc {S} (f : xml -> S -> option S) : forall pre e t, each f (pre ++ [e]) t = match each f pre t with None => None | Some t => f e t end.
Proof.
  induction pre as [|x pre IH]; intros e t; cbn.
  - destruct (f e t); auto.
  - destruct (f x t); auto.
Qed.
Lemma each_all {S} (f : xml -> S -> option S) (OKE : xml -> Prop) : (forall e t, f e t <> None -> OKE e) ->
  forall els t, each f els t <> None -> forall e, In e els -> OKE e.
Proof.
  intros F. induction els as [|x els IH]; intros t X e; [intros []|]. cbn in X. destruct (f x t) eqn:E; [|congruence].
  intros [<-|Hin]; [apply (F x t); congruence|eauto].
Qed.

Lemma gaps_run (P : parsers T) : forall els (t : gripper T), (forall e, In e els -> gap_readable P e) ->
  exists t' ns, each (gripper_gap P) els t = Some t' /\ Forall2 named els ns /\ gr_joints t' = gr_joints t ++ ns /\ same_rest_g t t' /\
     gr_has_passive t' = gr_has_passive t /\ gr_passive t' = gr_passive t /\ gr_sim_red t' = gr_sim_red t /\
     ((els = [] /\ t' = t) \/ exists pre e, els = pre ++ [e] /\ named e (gr_gap_joint t') /\ value P e "mechanical_reduction" (gr_red t') /\
       optional_value P e "screw_reduction" (ntwo / nofZ 1000) (gr_screw t') /\ optional_value P e "gear_ratio" (ndec 2916 2) (gr_gear t') /\
       optional_value P e "theta0" (ndec 297571 5 * npi / nofZ 180) (gr_theta0 t') /\ optional_value P e "phi0" (ndec 2998717 5 * npi / nofZ 180) (gr_phi0 t') /\
       optional_value P e "t0" (- ndec 19543 5 / nofZ 1000) (gr_t0 t') /\ optional_value P e "L0" (ndec 3470821 5 / nofZ 1000) (gr_L0 t') /\
       optional_value P e "h" (ndec 5200 3 / nofZ 1000) (gr_h t') /\ optional_value P e "a" (ndec 6756801 5 / nofZ 1000) (gr_a t') /\
       optional_value P e "b" (ndec 4897193 5 / nofZ 1000) (gr_b t') /\ optional_value P e "r" (ndec 9150000 5 / nofZ 1000) (gr_r t')).
Proof.
  intros els t. induction els as [|e els IH] using rev_ind; intros A.
  - exists t, []. split; [reflexivity|]. split; [constructor|]. rewrite app_nil_r. repeat (split; [reflexivity|]). split; [repeat split|]. repeat (split; [reflexivity|]). left. auto.
  - destruct IH as (t1 & ns & E & F & J & (S1 & S2 & S3 & S4 & S5 & S6) & H1 & H2 & H3 & _); [intros x Hin; apply A; apply in_or_app; auto|].
    destruct (gap_step P e t1) as [G _]. destruct G as (t2 & n & E2 & N2 & J2 & (R1 & R2 & R3 & R4 & R5 & R6) & K1 & K2 & K3 & REST); [apply A; apply in_or_app; right; now left|].
    exists t2, (ns ++ [n]). rewrite each_snoc, E. split; [exact E2|]. split; [apply Forall2_app; auto|]. split; [rewrite J2, J; now rewrite app_assoc|].
    split; [repeat split; congruence|]. do 3 (split; [congruence|]). right. exists els, e. split; auto.
Qed.
Lemma passives_run : forall els (t : gripper T) ns, Forall2 named els ns ->
  exists t', each gripper_passive els t = Some t' /\ gr_joints t' = gr_joints t ++ ns /\ same_rest_g t t' /\
     gr_has_passive t' = gr_has_passive t /\ gr_passive t' = gr_passive t ++ ns /\ gr_sim_red t' = gr_sim_red t /\ numbers t' = numbers t.
Proof.
  intros els t ns F. revert t. induction F as [|e n els ns HN F IH]; intros t; cbn.
  - exists t. rewrite !app_nil_r. repeat split.
  - unfold gripper_passive at 1. unfold named in HN. rewrite HN.
    match goal with |- context [each gripper_passive els ?u] => destruct (IH u) as (t' & E & J & (R1 & R2 & R3 & R4 & R5 & R6) & K1 & K2 & K3 & K4) end.
    exists t'. split; [exact E|]. split; [rewrite J; cbn; now rewrite <- app_assoc|]. split; [repeat split; assumption|]. split; [exact K1|].
    split; [rewrite K2; cbn; now rewrite <- app_assoc|]. split; assumption.
Qed.
Lemma sim_step (P : parsers T) e (t : gripper T) :
  (forall x l, value P e "simulated_reduction" x -> sim_adds e l -> exists t', gripper_simulated P e t = Some t' /\ gr_joints t' = gr_joints t ++ l /\ same_rest_g t t' /\
     gr_passive t' = gr_passive t /\ gr_sim_red t' = x /\ numbers t' = numbers t /\
     (gr_has_passive t' = true <-> gr_has_passive t = true \/ exists q, Attribute e "passive_actuated_joint" = Some q)) /\
  (gripper_simulated P e t <> None -> (exists n, named e n) /\ exists x, value P e "simulated_reduction" x).
Proof.
  unfold gripper_simulated. split.
  - intros x l (s & HS & HX) (n & HN & HL). unfold named in HN. rewrite HN, HS, HX.
    destruct HL as [[-> ->]|(q & -> & ->)]; eexists; (split; [reflexivity|]).
    + split; [reflexivity|]. split; [repeat split|]. repeat (split; [reflexivity|]). cbn. split; [auto|]. intros [|(q & X)]; [auto|discriminate].
    + split; [cbn; now rewrite <- app_assoc|]. split; [repeat split|]. repeat (split; [reflexivity|]). cbn. split; eauto.
  - unfold named, value. destruct (Attribute e "name") as [n|]; [|congruence]. destruct (Attribute e "simulated_reduction") as [s|]; [|congruence].
    destruct (p_lexical P s) as [x|] eqn:PX; [|congruence]. intros _. split; [eauto|]. exists x, s. auto.
Qed.
Lemma sims_run (P : parsers T) : forall els (t : gripper T) ls, (forall e, In e els -> exists x, value P e "simulated_reduction" x) -> Forall2 sim_adds els ls ->
  exists t', each (gripper_simulated P) els t = Some t' /\ gr_joints t' = gr_joints t ++ List.concat ls /\ same_rest_g t t' /\
     gr_passive t' = gr_passive t /\ numbers t' = numbers t /\
     (gr_has_passive t' = true <-> gr_has_passive t = true \/ exists e q, In e els /\ Attribute e "passive_actuated_joint" = Some q) /\
     ((els = [] /\ gr_sim_red t' = gr_sim_red t) \/ exists pre e, els = pre ++ [e] /\ value P e "simulated_reduction" (gr_sim_red t')).
Proof.
  intros els t. induction els as [|e els IH] using rev_ind; intros ls V F.
  - inversion F; subst. exists t. cbn. rewrite app_nil_r. split; [reflexivity|]. split; [reflexivity|]. split; [repeat split|]. do 2 (split; [reflexivity|]). split; [|left; auto].
    split; auto. intros [|(e & q & [] & _)]; auto.
  - apply Forall2_app_inv_l in F as (l1 & l2 & F1 & F2 & ->). inversion F2 as [|? l ? l3 SA F3]; subst. inversion F3; subst.
    destruct (IH l1) as (t1 & E & J & (S1 & S2 & S3 & S4 & S5 & S6) & HP & HNU & HH & _); [intros x Hin; apply V; apply in_or_app; auto|auto|].
    destruct (V e) as (x & HX); [apply in_or_app; right; now left|].
    destruct (sim_step P e t1) as [G _]. destruct (G x l HX SA) as (t2 & E2 & J2 & (R1 & R2 & R3 & R4 & R5 & R6) & K1 & K2 & K3 & K4).
    exists t2. rewrite each_snoc, E. split; [exact E2|]. split; [rewrite J2, J, List.concat_app; cbn; now rewrite app_nil_r, app_assoc|].
    split; [repeat split; congruence|]. split; [congruence|]. split; [congruence|]. split.
    + rewrite K4, HH. split.
      * intros [[X|(e' & q & Hin & X)]|(q & X)]; auto; right; [exists e', q|exists e, q]; (split; [apply in_or_app|exact X]); [left; exact Hin|right; now left].
      * intros [X|(e' & q & Hin & X)]; auto. apply in_app_or in Hin. destruct Hin as [Hin|[<-|[]]]; [left; right; eauto|right; eauto].
    + right. exists els, e. split; auto. rewrite K2. exact HX.
Qed.

Lemma forall2_named : forall els, (forall e : xml, In e els -> exists n, named e n) -> exists ns, Forall2 named els ns.
Proof.
  induction els as [|e els IH]; intros A; [exists []; constructor|].
  destruct (A e (or_introl eq_refl)) as (n & X). destruct IH as (ns & Y); [intros; apply A; now right|]. exists (n :: ns). now constructor.
Qed.
Lemma forall2_sims : forall els, (forall e : xml, In e els -> exists n, named e n) -> exists ls, Forall2 sim_adds els ls.
Proof.
  induction els as [|e els IH]; intros A; [exists []; constructor|].
  destruct (A e (or_introl eq_refl)) as (n & X). destruct IH as (ns & Y); [intros; apply A; now right|].
  destruct (Attribute e "passive_actuated_joint") as [q|] eqn:Q.
  - exists ([n; q] :: ns). constructor; auto. exists n. split; auto. right. eauto.
  - exists ([n] :: ns). constructor; auto. exists n. split; auto.
Qed.

Lemma gripper1_accepts (P : parsers T) elt g b c an js : child_name elt "actuator" an -> gripper_readable P elt js ->
  exists t, gripper_initXml1 P elt (new_gripper g b c) = Some t /\ gripper_holds P g elt an js t /\ gr_ts_init t = b /\ gr_start t = 0%Z /\ gr_cal t = c.
Proof.
  intros HA (GR & SR & ga & pa & si & F1 & F2 & F3 & ->). unfold gripper_initXml1. apply child_name_get in HA. rewrite HA.
  match goal with |- context [each (gripper_gap P) _ ?u] => destruct (gaps_run P (gaps elt) u GR) as (t1 & ns & E1 & N1 & J1 & (S1 & S2 & S3 & S4 & S5 & S6) & A1 & A2 & A3 & L1) end.
  assert (ns = ga). { clear -N1 F1. revert ga F1. induction N1; intros ga F1; inversion F1; subst; auto. f_equal; [unfold named in *; congruence|auto]. } subst ns.
  unfold gaps in E1. rewrite E1.
  destruct (passives_run (passives elt) t1 pa F2) as (t2 & E2 & J2 & (R1 & R2 & R3 & R4 & R5 & R6) & B1 & B2 & B3 & B4).
  unfold passives in E2. rewrite E2.
  destruct (sims_run P (simulateds elt) t2 si SR F3) as (t3 & E3 & J3 & (Q1 & Q2 & Q3 & Q4 & Q5 & Q6) & C1 & C2 & C3 & C4).
  unfold simulateds in E3. rewrite E3. exists t3. split; [reflexivity|].
  split; [|split; [rewrite Q4, R4, S4; reflexivity|split; [rewrite Q5, R5, S5; reflexivity|rewrite Q6, R6, S6; reflexivity]]].
  split; [rewrite Q1, R1, S1; apply own_name_get|]. split; [rewrite Q2, R2, S2; reflexivity|].
  split; [rewrite J3, J2, J1; cbn; now rewrite app_assoc|]. split; [rewrite C1, B2, A2; exact F2|]. split; [|split].
  - rewrite C2 in B4 || (rewrite B4 in C2). unfold numbers in C2. injection C2 as X0 X1 X2 X3 X4 X5 X6 X7 X8 X9 X10 X11.
    unfold gripper_geometry. rewrite X0, X1, X2, X3, X4, X5, X6, X7, X8, X9, X10, X11.
    destruct L1 as [[L1 ->]|(pre & e & L1 & REST)]; [left|right].
    + split; [exact L1|]. split; [reflexivity|]. repeat constructor.
    + exists pre, e. split; [exact L1|]. exact REST.
  - rewrite C3, B1, A1. cbn. split; [intros [|X]; [discriminate|exact X]|auto].
  - destruct C4 as [[L ->]|X]; [left; split; [exact L|]; now rewrite B3, A3|right; exact X].
Qed.
Lemma gripper1_refuses (P : parsers T) elt g b c t : gripper_initXml1 P elt (new_gripper g b c) = Some t ->
  exists an js, child_name elt "actuator" an /\ gripper_readable P elt js.
Proof.
  unfold gripper_initXml1. intros E.
  destruct (match FirstChildElement elt "actuator" with Some jel => Attribute jel "name" | None => None end) as [an|] eqn:EA; [|discriminate].
  match type of E with context [each (gripper_gap P) _ ?u] => destruct (each (gripper_gap P) (ChildElements elt "gap_joint") u) as [t1|] eqn:E1; [|discriminate];
    assert (G1 : forall e, In e (gaps elt) -> gap_readable P e) by (apply (each_all (gripper_gap P) (gap_readable P)) with (t := u); [intros e t0; apply gap_step|unfold gaps; congruence]) end.
  destruct (each gripper_passive (ChildElements elt "passive_joint") t1) as [t2|] eqn:E2; [|discriminate].
  assert (G2 : forall e, In e (passives elt) -> exists n, named e n).
  { apply (each_all gripper_passive (fun e => exists n, named e n)) with (t := t1); [|unfold passives; congruence].
    intros e t0 X. unfold gripper_passive in X. unfold named. destruct (Attribute e "name"); [eauto|congruence]. }
  assert (G3 : forall e, In e (simulateds elt) -> (exists n, named e n) /\ exists x, value P e "simulated_reduction" x).
  { apply (each_all (gripper_simulated P) (fun e => (exists n, named e n) /\ exists x, value P e "simulated_reduction" x)) with (t := t2); [|unfold simulateds; congruence].
    intros e t0. apply sim_step. }
  destruct (forall2_named (gaps elt)) as (ga & F1); [intros e Hin; exact (proj1 (G1 e Hin))|].
  destruct (forall2_named (passives elt) G2) as (pa & F2).
  destruct (forall2_sims (simulateds elt)) as (si & F3); [intros e Hin; exact (proj1 (G3 e Hin))|].
  exists an, (ga ++ pa ++ List.concat si). split; [now apply child_name_get|]. split; [exact G1|]. split; [intros e Hin; exact (proj2 (G3 e Hin))|].
  exists ga, pa, si. auto.
Qed.

(** The gripper description is accepted exactly if the actuator and all joints it names exist and all its elements are readable;
    the transmission then holds exactly this, and exactly the actuator has been enabled.  The call never misbehaves. *)
Theorem C78_accepts : forall (P : parsers T) (R : rview T) elt h g b c an a js,
  child_name elt "actuator" an -> rv_actuator R an = Some a -> gripper_readable P elt js -> (forall n, In n js -> known_in R n) ->
  exists t h', gripper_initXml P R elt h (new_gripper g b c) = Ok (Some t, h') /\ enabled a h h' /\
    gripper_holds P g elt an js t /\ gr_ts_init t = b /\ gr_start t = 0%Z /\ gr_cal t = c.
Proof.
  intros P R elt h g b c an a js HA FA HR HK. destruct (gripper1_accepts P elt g b c an js HA HR) as (t & E & HH & REST).
  pose proof HH as (_ & A & J & _). unfold gripper_initXml. rewrite E, A. cbn [enable_all]. rewrite FA, J.
  assert (B : forallb (fun n => match rv_joint R n with Some _ => true | None => false end) js = true).
  { apply forallb_forall. intros n Hin. apply known_iff. now apply HK. }
  rewrite B. cbn. exists t, (upd a (set_a_enable true) h). split; [reflexivity|]. split; [intros p; reflexivity|]. auto.
Qed.
Theorem C78_refuses : forall (P : parsers T) (R : rview T) elt h g b c,
  exists r h', gripper_initXml P R elt h (new_gripper g b c) = Ok (r, h') /\
    (r <> None -> exists an a js, child_name elt "actuator" an /\ rv_actuator R an = Some a /\ gripper_readable P elt js /\ forall n, In n js -> known_in R n) /\
    (r = None -> h' = h \/ exists an a, child_name elt "actuator" an /\ rv_actuator R an = Some a /\ enabled a h h').
Proof.
  intros P R elt h g b c. unfold gripper_initXml. destruct (gripper_initXml1 P elt (new_gripper g b c)) as [t|] eqn:E.
  2:{ exists None, h. split; auto. split; [congruence|auto]. }
  destruct (gripper1_refuses P elt g b c t E) as (an & js & HA & HR).
  destruct (gripper1_accepts P elt g b c an js HA HR) as (t' & E' & HH & _). assert (t' = t) by congruence. subst t'.
  destruct HH as (_ & A & J & _). rewrite A. cbn [enable_all]. destruct (rv_actuator R an) as [a|] eqn:FA.
  2:{ exists None, h. split; auto. split; [congruence|auto]. }
  cbn [andb]. rewrite J. destruct (forallb (fun n => match rv_joint R n with Some _ => true | None => false end) js) eqn:B.
  - eexists; eexists. split; [reflexivity|]. split; [|discriminate]. intros _. exists an, a, js. repeat (split; [assumption|]).
    intros n Hin. rewrite forallb_forall in B. apply known_iff. now apply B.
  - eexists; eexists. split; [reflexivity|]. split; [congruence|]. intros _. right. exists an, a. split; auto. split; auto. intros p. reflexivity.
Qed.
Theorem C78_without_robot : forall (P : parsers T) elt g b c,
  (forall an js, child_name elt "actuator" an -> gripper_readable P elt js ->
     exists t, gripper_initXml1 P elt (new_gripper g b c) = Some t /\ gripper_holds P g elt an js t) /\
  (gripper_initXml1 P elt (new_gripper g b c) <> None -> exists an js, child_name elt "actuator" an /\ gripper_readable P elt js).
Proof.
  intros P elt g b c. split.
  - intros an js HA HR. destruct (gripper1_accepts P elt g b c an js HA HR) as (t & E & HH & _). eauto.
  - intros X. destruct (gripper_initXml1 P elt (new_gripper g b c)) as [t|] eqn:E; [|congruence]. eapply gripper1_refuses; eauto.
Qed.
End Descriptions.

(** ** Examples, over any number type *)
Section Examples.
Context {T : Type} {N : Num T} {TG : Trig T}.
Definition exd_value (s : string) : T :=
  if String.eqb s "2" then nofZ 2 else if String.eqb s "3" then nofZ 3 else if String.eqb s "5" then nofZ 5 else nzero.
Definition exd_P : parsers T := mkParsers exd_value (fun s => if String.eqb s "x" then None else Some (exd_value s)) (fun s => Some (exd_value s)).
Definition exd_known (n : string) : bool := existsb (String.eqb n) ["j"; "k"; "gap"; "f1"; "f2"; "screw"; "slider"].
Definition exd_R : rview T := mkRview (fun n => if exd_known n then Some (mkUjoint n JREVOLUTE None None None) else None)
                                      (fun n => if String.eqb n "m" then Some 4 else None).

(** a simple transmission with the reduction inside the actuator element, a simulated joint, and a last simulated joint the
    description does not know: accepted with two joints but without the simulated joint in use *)
Definition exd_simple : xml := Elem "transmission" [("name", "t")] None
  [Elem "joint" [("name", "j")] None []; Elem "actuator" [("name", "m")] None [Elem "mechanicalReduction" [] (Some "2") []];
   Elem "mechanicalReduction" [] (Some "5") [];
   Elem "simulated_actuated_joint" [("name", "k"); ("simulated_reduction", "3")] None [];
   Elem "simulated_actuated_joint" [("name", "nobody")] None []].
Theorem C76_ex : simple_valid exd_P (known_in exd_R) (rv_actuator exd_R) exd_simple "j" "m" 4 "2" /\
  forall h g1 g2 b c, exists t h', simple_initXml exd_P exd_R exd_simple h (new_simple g1 g2 b c) = Ok (Some t, h') /\
    st_red t = nofZ 2 /\ st_sim_red t = nofZ 3 /\ st_joints t = ["j"; "k"] /\ st_use_sim t = false.
Proof.
  split.
  - split; [eexists; split; reflexivity|]. split; [discriminate|]. split; [eexists; split; reflexivity|]. split; [reflexivity|]. split.
    + eexists. split; [reflexivity|]. left. eexists. split; reflexivity.
    + cbn. intros e n [<-|[<-|[]]] [A K].
      * eexists. eexists. split; reflexivity.
      * injection A as <-. elim K. reflexivity.
  - intros. eexists. eexists. split; [reflexivity|]. cbn. auto.
Qed.
(** the same description without a robot: the reduction of the other element, and the unknown joint's missing number refuses it *)
Theorem C76_ex_without_robot : forall g1 g2 b c, simple_initXml1 exd_P exd_simple (new_simple g1 g2 b c) = Ok None.
Proof. reflexivity. Qed.

Definition exd_belt : xml := Elem "transmission" [] None
  [Elem "joint" [("name", "j")] None []; Elem "actuator" [("name", "m")] None []; Elem "mechanicalReduction" [] (Some "5") [];
   Elem "compensator" [("k_belt", "3"); ("mass_motor", "2"); ("kd_motor", "3"); ("lambda_motor", "2"); ("lambda_joint", "3"); ("lambda_combined", "5")] None []].
Theorem C77_ex : belt_valid (known_in exd_R) (rv_actuator exd_R) exd_belt "j" "m" 4 (mkBeltDecl "5" "3" "2" "3" "2" "3" "5").
Proof. repeat split; try (eexists; split; reflexivity); try discriminate. eexists. repeat split; reflexivity. Qed.
(** without a compensator element it is refused, with the actuator already enabled *)
Theorem C77_ex_refused : forall (h : nat -> actuator T) (t0 : belt T),
  exists h', belt_initXml exd_P exd_R (Elem "transmission" [] None [Elem "joint" [("name", "j")] None []; Elem "actuator" [("name", "m")] None [];
    Elem "mechanicalReduction" [] (Some "5") []]) h t0 = Ok (None, h') /\ a_enable (h' 4) = true.
Proof. intros. eexists. split; reflexivity. Qed.

Definition exd_gripper (coefficient : string) : xml := Elem "transmission" [("name", "g")] None
  [Elem "actuator" [("name", "m")] None []; Elem "gap_joint" [("name", "gap"); ("mechanical_reduction", "2"); ("a", coefficient)] None [];
   Elem "passive_joint" [("name", "f1")] None []; Elem "passive_joint" [("name", "f2")] None [];
   Elem "simulated_actuated_joint" [("name", "screw"); ("simulated_reduction", "3"); ("passive_actuated_joint", "slider")] None []].
Lemma exd_readable : gripper_readable exd_P (exd_gripper "5") ["gap"; "f1"; "f2"; "screw"; "slider"].
Proof.
  split; [|split].
  - cbn. intros e [<-|[]]. split; [eexists; reflexivity|]. split; [exists (nofZ 2), "2"; split; reflexivity|].
    intros attr Hin. cbn in Hin. destruct Hin as [E|[E|[E|[E|[E|[E|[E|[E|[E|[E|[]]]]]]]]]]]; subst attr; try (left; reflexivity).
    right. exists (nofZ 5), "5". split; reflexivity.
  - cbn. intros e [<-|[]]. exists (nofZ 3), "3". split; reflexivity.
  - exists ["gap"], ["f1"; "f2"], [["screw"; "slider"]]. cbn. repeat split; repeat constructor.
    exists "screw". split; [reflexivity|]. right. exists "slider". split; reflexivity.
Qed.
Lemma exd_all_known : forall n, In n ["gap"; "f1"; "f2"; "screw"; "slider"] -> known_in exd_R n.
Proof. intros n Hin. cbn in Hin. destruct Hin as [<-|[<-|[<-|[<-|[<-|[]]]]]]; discriminate. Qed.
(** a gripper leaving out all coefficients but one *)
Theorem C78_ex : forall h g b c, exists t h', gripper_initXml exd_P exd_R (exd_gripper "5") h (new_gripper g b c) = Ok (Some t, h') /\
  gr_joints t = ["gap"; "f1"; "f2"; "screw"; "slider"] /\ gr_a t = nofZ 5 /\ gr_gear t = ndec 2916 2 /\ gr_sim_red t = nofZ 3 /\ gr_has_passive t = true.
Proof.
  intros. assert (CN : child_name (exd_gripper "5") "actuator" "m") by (eexists; split; reflexivity).
  destruct (C78_accepts exd_P exd_R (exd_gripper "5") h g b c "m" 4 _ CN eq_refl exd_readable exd_all_known) as (t & h' & E & _ & HH & _).
  exists t, h'. split; [exact E|]. destruct HH as (_ & _ & J & _ & GEO & HP & SR). split; [exact J|].
  assert (GE : gaps (exd_gripper "5") = [Elem "gap_joint" [("name", "gap"); ("mechanical_reduction", "2"); ("a", "5")] None []]) by reflexivity.
  assert (SE : simulateds (exd_gripper "5") = [Elem "simulated_actuated_joint" [("name", "screw"); ("simulated_reduction", "3"); ("passive_actuated_joint", "slider")] None []]) by reflexivity.
  destruct GEO as [[X _]|(pre & e & X & _ & _ & _ & OG & _ & _ & _ & _ & _ & OA & _)]; [rewrite GE in X; discriminate|].
  rewrite GE in X. destruct pre as [|? [|]]; [|discriminate|discriminate]. injection X as <-.
  split; [|split; [|split]].
  - destruct OA as [[X _]|(s & X & Y)]; [discriminate|]. injection X as <-. cbn in Y. congruence.
  - destruct OG as [[_ X]|(s & X & Y)]; [exact X|discriminate].
  - destruct SR as [[X _]|(pre & e & X & s & Y & Z)]; [rewrite SE in X; discriminate|]. rewrite SE in X.
    destruct pre as [|? [|]]; [|discriminate|discriminate]. injection X as <-. injection Y as <-. cbn in Z. congruence.
  - apply HP. rewrite SE. eexists. eexists. split; [now left|]. reflexivity.
Qed.
(** a coefficient which is not a number refuses it *)
Theorem C78_ex_refused : forall h g b c, exists h', gripper_initXml exd_P exd_R (exd_gripper "x") h (new_gripper g b c) = Ok (None, h').
Proof.
  intros. destruct (C78_refuses exd_P exd_R (exd_gripper "x") h g b c) as ([t|] & h' & E & A & _); [|eauto].
  exfalso. destruct A as (an & a & js & _ & _ & (GR & _) & _); [discriminate|].
  destruct (GR (Elem "gap_joint" [("name", "gap"); ("mechanical_reduction", "2"); ("a", "x")] None [])) as (_ & _ & C); [now left|].
  destruct (C "a") as [X|(y & s & X & Y)]; [cbn; tauto|discriminate|]. injection X as <-. discriminate.
Qed.
End Examples.
