(** Vocabulary for chains and trees. *)
From Coq Require Import List String Arith Bool ZArith Sorting.Permutation.
From Verif.Model Require Import Base Num Joint Hardware Transmission Robot Kinematics.
Import ListNotations.

(** the joints of the segments that can move, in order *)
Definition moving (segs : list kseg) : list string := map k_joint (filter k_moving segs).
(** the numbered joints of the tree elements that can move *)
Definition numbered (segs : list kelem) : list (nat * string) :=
  map (fun e => (k_nr e, k_joint (k_seg e))) (filter (fun e => k_moving (k_seg e)) segs).
(** KDL numbers the moving joints of a tree 0, 1, ..., n-1 *)
Definition well_numbered (segs : list kelem) : Prop :=
  Permutation (map fst (numbered segs)) (seq 0 (List.length (numbered segs))).

(** [m'] is [m] except that the commanded effort of the k-th joint of [js] is now [f k (what it was)]. *)
Definition commanded {T} (js : joints) (f : nat -> T -> T) (m m' : mem T) : Prop :=
  m_act m' = m_act m /\
  (forall k p, nth_error js k = Some p -> m_js m' p = set_commanded_effort (f k (commanded_effort (m_js m p))) (m_js m p)) /\
  (forall p, ~ In p js -> m_js m' p = m_js m p).
