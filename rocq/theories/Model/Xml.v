(** TinyXML elements as the code sees them (external library; parsing itself is not modelled). *)
From Coq Require Import List String Arith Bool ZArith.
From Verif.Model Require Import Base.
Import ListNotations.

(** An element: its tag, its attributes, the text if its first child node is a text node, its child elements. *)
Inductive xml := Elem (tag : string) (attrs : list (string * string)) (text : option string) (children : list xml).
Definition x_tag (e : xml) : string := let '(Elem t _ _ _) := e in t.
Definition x_attrs (e : xml) : list (string * string) := let '(Elem _ a _ _) := e in a.
Definition x_children (e : xml) : list xml := let '(Elem _ _ _ c) := e in c.

(** TiXmlElement::Attribute(name): NULL if absent. *)
Definition Attribute (e : xml) (name : string) : option string :=
  match find (fun kv => String.eqb (fst kv) name) (x_attrs e) with Some (_, v) => Some v | None => None end.

(** TiXmlElement::GetText(): NULL if the first child is not a text node. *)
Definition GetText (e : xml) : option string := let '(Elem _ _ t _) := e in t.

(** FirstChildElement(tag), and the loop [for (x = e->FirstChildElement(tag); x; x = x->NextSiblingElement(tag))]. *)
Definition FirstChildElement (e : xml) (tag : string) : option xml :=
  find (fun c => String.eqb (x_tag c) tag) (x_children e).
Definition ChildElements (e : xml) (tag : string) : list xml :=
  filter (fun c => String.eqb (x_tag c) tag) (x_children e).

(** Dereferencing a pointer that may be NULL. *)
Definition deref {A} (p : option A) : res A := match p with Some x => Ok x | None => UB end.
