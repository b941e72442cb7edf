(** What a correct execution order is, independently of the algorithm. *)
From Coq Require Import List String Arith Sorting.Permutation.
From Verif.Model Require Import Scheduler.
Import ListNotations.

Definition names (c : list spec) : list string := map sp_name c.

(** "[x] has to run before [y]": [y] obtained [x] with BEFORE_ME, or [x] obtained [y] with AFTER_ME. *)
Definition must_precede (c : list spec) (x y : string) : Prop :=
  (exists s, In s c /\ sp_name s = y /\ In x (sp_before s)) \/
  (exists s, In s c /\ sp_name s = x /\ In y (sp_after s)).

(** [x] occurs strictly before [y] in the order [o]. *)
Definition comes_before (o : list string) (x y : string) : Prop :=
  exists i j, i < j /\ nth_error o i = Some x /\ nth_error o j = Some y.

(** An order of controller names that is admissible for the controllers [c]. *)
Definition admissible (c : list spec) (o : list string) : Prop :=
  Permutation o (names c) /\
  forall x y, must_precede c x y -> comes_before o x y.

(** Every AFTER_ME reference names a controller loaded earlier (or the controller itself). *)
Definition after_refs_loaded (c : list spec) : Prop :=
  forall c1 s c2 a, c = c1 ++ s :: c2 -> In a (sp_after s) -> In a (names (c1 ++ [s])).

(** The execution order a schedule vector (indices into [c]) describes. *)
Definition order_of (c : list spec) (schedule : list nat) : list (option string) :=
  map (fun i => option_map sp_name (nth_error c i)) schedule.

(** [x] may be placed next after the controllers in [done]. *)
Definition available (c : list spec) (done : list string) (x : string) : Prop :=
  In x (names c) /\ ~ In x done /\ forall y, must_precede c y x -> In y done.

(** At every position the alphabetically smallest available controller has been placed. *)
Definition canonical (c : list spec) (o : list string) : Prop :=
  forall pre x post, o = pre ++ x :: post ->
    available c pre x /\
    forall y, available c pre y -> String.compare x y <> Gt.
