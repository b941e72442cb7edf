(** Shared vocabulary of the model: outcomes and std::vector accesses.
    (No /repo code of its own: this is the C++ language level the other files are written against.) *)
From Coq Require Import List String Arith Bool ZArith.
Import ListNotations.

(** Outcome of a piece of C++ code that may run into undefined behaviour (out-of-bounds access,
    NULL dereference, ...), into a failing [assert], or into a loop that never ends. *)
Inductive res (A : Type) : Type :=
| Ok (a : A)
| UB
| Abort
| Hang.
Arguments Ok {A} _.
Arguments UB {A}.
Arguments Abort {A}.
Arguments Hang {A}.

Definition bind {A B} (x : res A) (f : A -> res B) : res B :=
  match x with Ok a => f a | UB => UB | Abort => Abort | Hang => Hang end.

Declare Scope res_scope.
Delimit Scope res_scope with res.
Notation "'do' x <- a ; b" := (bind a (fun x => b))
  (at level 200, x pattern, a at level 100, b at level 200, right associativity) : res_scope.
Open Scope res_scope.

(** [v[i]] for a std::vector: reading out of bounds is undefined behaviour. *)
Definition vget {A} (v : list A) (i : nat) : res A :=
  match nth_error v i with Some x => Ok x | None => UB end.

Fixpoint set_nth {A} (i : nat) (x : A) (v : list A) : list A :=
  match v, i with
  | [], _ => []
  | _ :: v', 0 => x :: v'
  | y :: v', S i' => y :: set_nth i' x v'
  end.

(** [v[i] = x]: writing out of bounds is undefined behaviour. *)
Definition vset {A} (v : list A) (i : nat) (x : A) : res (list A) :=
  if i <? List.length v then Ok (set_nth i x v) else UB.

(** [v.resize(n)]: keeps the first [n] elements, appends value-initialised ones. *)
Definition resize {A} (d : A) (n : nat) (v : list A) : list A :=
  firstn n v ++ repeat d (n - List.length v).

(** [assert(b)]; [enabled = false] models a build with NDEBUG. *)
Definition cassert (enabled : bool) (b : bool) : res unit :=
  if enabled && negb b then Abort else Ok tt.
