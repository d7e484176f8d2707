(** Executions of the PWM: calls that do not overlap, with the DMA engine running at its
    own pace; and two threads at once. *)
From Coq Require Import ZArith Bool List.
From Verif Require Import PyBase PyNum Dma DmaGpio Gpio Pwm.
Import ListNotations.
Local Open Scope Z_scope.

Section Calls.
Context {N : PyNum}.
Variable base : Z.

(** Calls of the two methods. *)
Inductive call : Type :=
| CallAdd (pin : Z) (duty : N)
| CallRemove (pin : Z).
Definition pin_of (c : call) : Z := match c with CallAdd p _ | CallRemove p => p end.
(** The call does not fail in an assertion; [t] is its first step. *)
Inductive begins : call -> pc -> Prop :=
| begins_add pin duty b : 0 <= pin < 32 -> block_number duty = Ok b -> begins (CallAdd pin duty) (RemTest pin (Some b))
| begins_remove pin : 0 <= pin < 32 -> begins (CallRemove pin) (RemTest pin None).

(** Slots of 256 requested for [pin] by the calls [h], newest first. *)
Fixpoint wanted (h : list call) (pin : Z) : Z :=
  match h with
  | [] => 0
  | CallAdd p duty :: r => if p =? pin then match block_number duty with Ok b => b | Raise _ => 0 end else wanted r pin
  | CallRemove p :: r => if p =? pin then 0 else wanted r pin
  end.

(** Executions with one call at a time: history, shared data, thread. The pins of the
    PWM are low at the beginning. *)
Inductive runs : list call -> shared -> pc -> Prop :=
| runs_init m g : (forall p, 0 <= p < 32 -> g_latch g p = false) -> runs [] (pwm0 base m g) Done
| runs_call h s c t : runs h s Done -> begins c t -> runs (c :: h) s t
| runs_thread h s t : runs h s t -> runs h (fst (tstep base s t)) (snd (tstep base s t))
| runs_engine h s t : runs h s t -> runs h (estep s) t.

(** Executions with two threads at a time. *)
Inductive runs2 : list call -> shared -> pc -> pc -> Prop :=
| runs2_init m g : (forall p, 0 <= p < 32 -> g_latch g p = false) -> runs2 [] (pwm0 base m g) Done Done
| runs2_call1 h s c t t2 : runs2 h s Done t2 -> begins c t -> runs2 (c :: h) s t t2
| runs2_call2 h s t1 c t : runs2 h s t1 Done -> begins c t -> runs2 (c :: h) s t1 t
| runs2_thread1 h s t1 t2 : runs2 h s t1 t2 -> runs2 h (fst (tstep base s t1)) (snd (tstep base s t1)) t2
| runs2_thread2 h s t1 t2 : runs2 h s t1 t2 -> runs2 h (fst (tstep base s t2)) t1 (snd (tstep base s t2))
| runs2_engine h s t1 t2 : runs2 h s t1 t2 -> runs2 h (estep s) t1 t2.

(** Executions with one call at a time in which the engine reads the data of a block in
    one step and writes it in a later one; [q] has been read but not written. *)
Inductive runs_split : list call -> shared -> pc -> list action -> Prop :=
| rsp_init m g : (forall p, 0 <= p < 32 -> g_latch g p = false) -> runs_split [] (pwm0 base m g) Done []
| rsp_call h s c t q : runs_split h s Done q -> begins c t -> runs_split (c :: h) s t q
| rsp_thread h s t q : runs_split h s t q -> runs_split h (fst (tstep base s t)) (snd (tstep base s t)) q
| rsp_read h s t : runs_split h s t [] ->
    runs_split h (set_eng s (advance (w_mem s) (w_eng s))) t (performed false (w_mem s) (w_eng s))
| rsp_write h s t q : runs_split h s t q -> runs_split h (set_gpio s (apply_actions (w_gpio s) q)) t [].

End Calls.
Arguments call : clear implicits.

(** The level of a pin. *)
Definition high (s : shared) (pin : Z) : bool := g_latch (w_gpio s) pin.
(** [n] control blocks later. *)
Definition later (n : nat) (s : shared) : shared := Nat.iter n estep s.
