(** Model of the test which utils/heater_model_finder.py makes with the coefficients it found,
    lines 96-102: heating from max - delta with steps of one second. Simplification:
    [heat_time] (line 97) is an argument; a status is returned instead of a printed text. *)
From Coq Require Import ZArith Bool List.
From Verif Require Import PyBase PyNum.
Local Open Scope num_scope.

Section QuickTest.
Context {N : PyNum}.
(** Body of the loop, utils/heater_model_finder.py:100-101; 25 is the temperature of the
    environment, line 22. *)
Definition quick_step (c h t : N) : N := t - absn (t - ofZ 25) * c + h.
(** The loop, line 99. *)
Fixpoint quick_steps (n : nat) (c h t : N) : N :=
  match n with O => t | S n => quick_steps n c h (quick_step c h t) end.
(** t and model_status, lines 97-102. *)
Definition quick_test (max delta c h heat_time : N) : res (N * bool) :=
  match trunc (heat_time + ofdec false 5 1) with
  | Raise e => Raise e
  | Ok n => let t := quick_steps (Z.to_nat n) c h (max - delta) in Ok (t, absn (max - t) <? max * ofdec false 1 1)
  end.
End QuickTest.
