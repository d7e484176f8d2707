(** What C86 says about timed executions, without the model's functions. *)
From Coq Require Import ZArith List.
From Verif Require Import Watchdog WatchdogThread.
Import ListNotations.
Local Open Scope Z_scope.

(** Times do not decrease and none is before [t]. *)
Fixpoint in_order (t : Z) (l : timed) : Prop :=
  match l with [] => True | (t', _) :: r => t <= t' /\ in_order t' r end.
(** The times of the feeds, and of the completed blocks. *)
Fixpoint fed_at (l : timed) : list Z :=
  match l with [] => [] | (t, Feed) :: r => t :: fed_at r | _ :: r => fed_at r end.
Fixpoint completed_at (l : timed) : list Z :=
  match l with [] => [] | (t, Tick) :: r => t :: completed_at r | _ :: r => completed_at r end.
(** Consecutive times are at least [d] apart; at most [d] apart, beginning at [from] and
    until [until]. *)
Fixpoint at_least (d : Z) (ts : list Z) : Prop :=
  match ts with t :: ((t' :: _) as r) => t + d <= t' /\ at_least d r | _ => True end.
Fixpoint at_most (d from until : Z) (ts : list Z) : Prop :=
  match ts with [] => until <= from + d | t :: r => t <= from + d /\ at_most d t until r end.
