(** Infinite executions of the controller manager under a fair operating system. *)
From Coq Require Import List String Arith Bool ZArith.
From Verif.Model Require Import Base Scheduler Controller Manager ManagerConc.
From Verif.Spec Require Import ManagerSpec ConcSpec.
Import ListNotations.

(** "from any point on it happens again" *)
Definition always_again (P : nat -> Prop) : Prop := forall n, exists m, n <= m /\ P m.

Section Live.
Context {W : Type} (H : hooks W).

(** An infinite execution: the [n]-th configuration and the [n]-th step.  The process never aborts, ros stays up. *)
Record endless (exe : nat -> config W) (lab : nat -> label W) : Prop := {
  en_live : live H (exe 0);
  en_step : forall n, bstep H (lab n) (exe n) = Some (Ok (exe (S n)));
  en_first : forall n a b, lab n = LRt a b -> ~ stale_start (exe n);
  en_ros : forall n, rosok (exe n) = true }.

Definition is_rt_label (l : label W) : Prop := match l with LRt _ _ => True | _ => False end.

(** Fairness: the realtime loop keeps being executed, the publisher's thread gives the message back after sending it, and a
    client thread that can take a step again and again is scheduled again and again (its mutexes do not starve it). *)
Record fair (exe : nat -> config W) (lab : nat -> label W) : Prop := {
  fr_rt : always_again (fun n => is_rt_label (lab n));
  fr_pub : forall n, pub_lock (exe n) = Some OPublisher -> exists m, n <= m /\ lab m = LPubFree;
  fr_thread : forall k, always_again (fun n => bstep H (LTh k) (exe n) <> None) -> always_again (fun n => lab n = LTh k) }.

(** a client thread with nothing to do: its service call or program is finished *)
Definition finished (exe : nat -> config W) (k n : nat) : Prop := thr (exe n) k = TIdle.

End Live.
