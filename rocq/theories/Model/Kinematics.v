(** pr2_mechanism_model/src/chain.cpp, include/pr2_mechanism_model/chain.h, src/tree.cpp, include/pr2_mechanism_model/tree.h:
    access to the joints of a kinematic chain or tree.

    KDL is not part of this repository: what it extracts from the URDF is a parameter (a list of segments).  A joint pointer
    is an index into the joint states of a [mem] (Robot.v). *)
From Coq Require Import List String Arith Bool ZArith.
From Verif.Model Require Import Base Num Joint Hardware Transmission Robot.
Import ListNotations.

(** A KDL::Segment, as far as chain.cpp:67-76 and tree.cpp:69-73 look at it: the name of its joint and whether the joint is
    other than KDL::Joint::None. *)
Record kseg := mkKseg { k_joint : string; k_moving : bool }.
(** A KDL::TreeElement: the segment and its joint number q_nr. *)
Record kelem := mkKelem { k_seg : kseg; k_nr : nat }.

(** The members of Chain and of Tree the accessors use: std::vector<JointState*> joints_ (chain.h:126, tree.h:119). *)
Definition joints := list nat.

(** chain.cpp:65-77: pull out the joints.  The vector as it is after the loop, and whether all were found; on the first joint
    not found the loop returns false with the joints found so far in joints_. *)
Fixpoint pull_joints (s : rstate) (segs : list kseg) (acc : joints) : bool * joints :=
  match segs with
  | [] => (true, acc)
  | g :: segs' =>
    if k_moving g then
      match getJointState s (k_joint g) with
      | None => (false, acc)
      | Some p => pull_joints s segs' (acc ++ [p])
      end
    else pull_joints s segs' acc
  end.

(** chain.cpp:40-81 Chain::init.  [tree_ok]: treeFromUrdfModel succeeded; [extract root tip]: what getChain found, None if it
    returned false or threw.  Result: the return value and joints_ afterwards ([old] before). *)
Definition chain_init (tree_ok : bool) (extract : string -> string -> option (list kseg)) (s : rstate)
  (root tip : string) (old : joints) : bool * joints :=
  if negb tree_ok then (false, old) else
  match extract root tip with
  | None => (false, old)
  | Some segs => pull_joints s segs []
  end.

(** std::map<unsigned int, std::string>::operator[] = (tree.cpp:72), the map as a list sorted by key *)
Fixpoint imap_set (k : nat) (v : string) (m : list (nat * string)) : list (nat * string) :=
  match m with
  | [] => [(k, v)]
  | (k', v') :: m' =>
    match Nat.compare k k' with
    | Lt => (k, v) :: m
    | Eq => (k, v) :: m'
    | Gt => (k', v') :: imap_set k v m'
    end
  end.
(** tree.cpp:65-73: the joints of all segments, in the order of the segment map *)
Definition joint_map (segs : list kelem) : list (nat * string) :=
  fold_left (fun m e => if k_moving (k_seg e) then imap_set (k_nr e) (k_joint (k_seg e)) m else m) segs [].
(** tree.cpp:77-90 *)
Fixpoint tree_joints (s : rstate) (m : list (nat * string)) (acc : joints) : bool * joints :=
  match m with
  | [] => (true, acc)
  | (_, n) :: m' =>
    match getJointState s n with
    | None => (false, acc)
    | Some p => tree_joints s m' (acc ++ [p])
    end
  end.
(** tree.cpp:45-99 Tree::init.  [kdl]: the segments of the KDL tree (std::map order), None if it could not be constructed: then
    the local segment map stays empty. *)
Definition tree_init (kdl : option (list kelem)) (s : rstate) : bool * joints :=
  let segs := match kdl with Some segs => segs | None => [] end in
  tree_joints s (joint_map segs) [].

(** ** The accessors *)
Section Access.
Context {T : Type} {N : Num T}.
Variable dbg : bool.   (** assertions enabled *)

(** the loop [for i < joints_.size(): v[i] = joints_[i]->field] *)
Fixpoint read_loop (f : jointstate T -> T) (m : mem T) (js : joints) (i : nat) (v : list T) : res (list T) :=
  match js with
  | [] => Ok v
  | p :: js' => do v <- vset v i (f (m_js m p)); read_loop f m js' (S i) v
  end.
Definition get_resized (f : jointstate T -> T) (m : mem T) (js : joints) (v : list T) : res (list T) :=
  read_loop f m js 0 (resize nzero (List.length js) v).
(** chain.cpp:83-108: the std::vector versions, which resize their argument *)
Definition getPositions_vector := get_resized position.
Definition getVelocities_vector := get_resized velocity.
Definition getEfforts_vector := get_resized measured_effort.
Definition get_checked (f : jointstate T -> T) (m : mem T) (js : joints) (v : list T) : res (list T) :=
  do _ <- cassert dbg (List.length v =? List.length js);
  read_loop f m js 0 v.
(** chain.cpp:126-131, chain.h:63-69, tree.h:122-135 (KDL::JntArray and template versions: the size is asserted; the template
    versions compare the sizes as int, which is not modelled) *)
Definition getPositions := get_checked position.
(** chain.h:76-82, tree.h:148-154 *)
Definition getVelocities := get_checked velocity.
(** chain.cpp:143-148, tree.h:156-169 *)
Definition getEfforts := get_checked measured_effort.
(** chain.cpp:133-141, tree.h:137-146: KDL::JntArrayVel *)
Fixpoint readvel_loop (m : mem T) (js : joints) (i : nat) (q qdot : list T) : res (list T * list T) :=
  match js with
  | [] => Ok (q, qdot)
  | p :: js' =>
    do q <- vset q i (position (m_js m p));
    do qdot <- vset qdot i (velocity (m_js m p));
    readvel_loop m js' (S i) q qdot
  end.
Definition get_jntarrayvel (m : mem T) (js : joints) (q qdot : list T) : res (list T * list T) :=
  do _ <- cassert dbg (List.length q =? List.length js);
  do _ <- cassert dbg (List.length qdot =? List.length js);
  readvel_loop m js 0 q qdot.

(** chain.cpp:150-162, chain.h:98-104; tree.h:171-199: [f old a(i)] is written to commanded_effort_ *)
Fixpoint write_loop (f : T -> T -> T) (js : joints) (i : nat) (a : list T) (m : mem T) : res (mem T) :=
  match js with
  | [] => Ok m
  | p :: js' =>
    do x <- vget a i;
    write_loop f js' (S i) a (js_upd p (fun j => set_commanded_effort (f (commanded_effort j) x) j) m)
  end.
Definition setEfforts (js : joints) (a : list T) (m : mem T) : res (mem T) :=
  do _ <- cassert dbg (List.length a =? List.length js);
  write_loop (fun _ x => x) js 0 a m.
Definition addEfforts (js : joints) (a : list T) (m : mem T) : res (mem T) :=
  do _ <- cassert dbg (List.length a =? List.length js);
  write_loop (fun old x => nadd old x) js 0 a m.

(** chain.cpp:110-118, tree.h:201-209 *)
Fixpoint allCalibrated (m : mem T) (js : joints) : bool :=
  match js with
  | [] => true
  | p :: js' => if calibrated (m_js m p) then allCalibrated m js' else false
  end.
(** chain.cpp:165-171, tree.h:216-222 *)
Definition getJoint (js : joints) (i : nat) : option nat :=
  if List.length js <=? i then None else nth_error js i.
(** chain.h:120, tree.h:224-227 *)
Definition size (js : joints) : nat := List.length js.
End Access.
