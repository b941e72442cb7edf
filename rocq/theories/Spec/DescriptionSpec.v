(** What a transmission element of a robot description says, in terms of its child elements, attributes and texts
    (TinyXML's view of the document, Model/Xml.v). *)
From Coq Require Import List String Arith Bool.
From Verif.Model Require Import Base Num Joint Hardware Xml Transmission.
Import ListNotations.
Local Open Scope string_scope.

(** the element's own name, empty if it has none *)
Definition own_name (e : xml) (n : string) : Prop :=
  Attribute e "name" = Some n \/ (Attribute e "name" = None /\ n = "").
(** the first child element with this tag is called [n] *)
Definition child_name (e : xml) (tag n : string) : Prop :=
  exists c, FirstChildElement e tag = Some c /\ Attribute c "name" = Some n.
(** the first child element with this tag contains the text [s] *)
Definition child_text (e : xml) (tag s : string) : Prop :=
  exists c, FirstChildElement e tag = Some c /\ GetText c = Some s.

(** The text giving the reduction of a simple transmission: inside the actuator element if there is such an element, else
    directly in the transmission element. *)
Definition reduction_text (e : xml) (s : string) : Prop :=
  exists ael, FirstChildElement e "actuator" = Some ael /\
    (child_text ael "mechanicalReduction" s \/
     (FirstChildElement ael "mechanicalReduction" = None /\ child_text e "mechanicalReduction" s)).

(** A simulated_actuated_joint element counts if it names a joint the description knows. *)
Definition sim_joint (known : string -> Prop) (e : xml) (n : string) : Prop := Attribute e "name" = Some n /\ known n.
(** its reduction *)
Definition sim_value {T} (P : parsers T) (e : xml) (x : T) : Prop :=
  exists s, Attribute e "simulated_reduction" = Some s /\ p_lexical P s = Some x.
(** the names of those that count, in document order *)
Inductive sim_names (known : string -> Prop) : list xml -> list string -> Prop :=
| sims_nil : sim_names known [] []
| sims_take e n els ns : sim_joint known e n -> sim_names known els ns -> sim_names known (e :: els) (n :: ns)
| sims_skip e els ns : (forall n, ~ sim_joint known e n) -> sim_names known els ns -> sim_names known (e :: els) ns.
(** [x] is the reduction of the last one that counts; [x0] if none does *)
Inductive last_value {T} (P : parsers T) (known : string -> Prop) (x0 : T) (els : list xml) (x : T) : Prop :=
| last_none : (forall e n, In e els -> ~ sim_joint known e n) -> x = x0 -> last_value P known x0 els x
| last_some pre e post n : els = (pre ++ e :: post)%list -> sim_joint known e n -> sim_value P e x ->
    (forall e' n', In e' post -> ~ sim_joint known e' n') -> last_value P known x0 els x.

(** The actuators after initialisation: [a] is enabled, nothing else has changed. *)
Definition enabled {T} (a : nat) (h h' : nat -> actuator T) : Prop :=
  forall p, h' p = if Nat.eqb p a then set_a_enable true (h p) else h p.

(** An optional number: the default if the attribute is absent, otherwise it must parse. *)
Definition optional_value {T} (P : parsers T) (e : xml) (attr : string) (default x : T) : Prop :=
  (Attribute e attr = None /\ x = default) \/ (exists s, Attribute e attr = Some s /\ p_lexical P s = Some x).

(** ** The gripper's description *)
Definition named (e : xml) (n : string) : Prop := Attribute e "name" = Some n.
(** a mandatory number *)
Definition value {T} (P : parsers T) (e : xml) (attr : string) (x : T) : Prop :=
  exists s, Attribute e attr = Some s /\ p_lexical P s = Some x.
(** the attributes of a gap_joint element which may be left out *)
Definition gap_coefficients : list string := ["screw_reduction"; "gear_ratio"; "theta0"; "phi0"; "t0"; "L0"; "h"; "a"; "b"; "r"].
Definition gap_readable {T} (P : parsers T) (e : xml) : Prop :=
  (exists n, named e n) /\ (exists x, value P e "mechanical_reduction" x) /\
  forall attr, In attr gap_coefficients -> Attribute e attr = None \/ exists x, value P e attr x.
(** a simulated_actuated_joint element adds its own name and that of its passive_actuated_joint, if it has one *)
Definition sim_adds (e : xml) (ns : list string) : Prop :=
  exists n, named e n /\
    ((Attribute e "passive_actuated_joint" = None /\ ns = [n]) \/
     (exists q, Attribute e "passive_actuated_joint" = Some q /\ ns = [n; q])).
