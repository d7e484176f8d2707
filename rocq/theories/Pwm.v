(** Model of class DMAPWM in cnc/hal_raspberry/rpgpio.py:259-360. The methods are cut into
    steps at every access to shared data (control blocks, dictionary, registers), so
    that the DMA engine, or another thread, can act in between. One access to the
    dictionary is one step (global interpreter lock). *)
From Coq Require Import ZArith Bool List.
From Verif Require Import PyBase PyNum Dma DmaGpio Gpio.
Import ListNotations.
Local Open Scope Z_scope.

(** int(duty_cycle * 256 / 100.0) and the assertion, cnc/hal_raspberry/rpgpio.py:313-316. *)
Definition block_number {N : PyNum} (duty : N) : res Z :=
  do! _ <- guard (leb (ofZ 0) duty && leb duty (ofZ 100)) AssertionError;
  do! q <- div (mul duty (ofZ 256)) (ofZ 100);
  trunc q.

Section Pwm.
(** Bus address of the buffer. *)
Variable base : Z.

(** __add_control_block, cnc/hal_raspberry/rpgpio.py:293-306. *)
Definition pwm_info : Z :=
  Z.lor (Z.lor (Z.lor (Z.shiftl 1 26) (Z.shiftl 1 3)) (Z.shiftl 1 4)) (Z.shiftl 1 8).
Definition pwm_block (ba offset : Z) : list Z :=
  [pwm_info; ba + 24; gpio_bus + offset; 4; 0; ba + 32; 0; 0].
Definition add_control_block (m : mem) (address offset : Z) : mem :=
  fst (pack m (base + address) (pwm_block (base + address) offset)).

(** The loop in __init__, cnc/hal_raspberry/rpgpio.py:285-287: blocks [i], [i]+1, ... *)
Fixpoint clear_blocks (m : mem) (i : Z) (n : nat) : mem :=
  match n with
  | O => m
  | S k => clear_blocks (add_control_block m (i * 32) 40) (i + 1) k
  end.
(** Memory after __init__, cnc/hal_raspberry/rpgpio.py:280-291. *)
Definition pwm_memory (m : mem) : mem :=
  mset (clear_blocks (add_control_block m 0 28) 1 255) (base + (255 * 32 + 20)) base.

(** Shared data: control blocks, _clear_pins, DMA channel 14, GPIO. *)
Record shared : Type := {
  w_mem : mem;
  w_dict : Z -> option Z;
  w_eng : engine;
  w_gpio : gpio
}.
Definition set_mem (s : shared) (m : mem) : shared :=
  {| w_mem := m; w_dict := w_dict s; w_eng := w_eng s; w_gpio := w_gpio s |}.
Definition set_dict (s : shared) (p : Z) (v : option Z) : shared :=
  {| w_mem := w_mem s; w_dict := fun q => if q =? p then v else w_dict s q; w_eng := w_eng s; w_gpio := w_gpio s |}.
Definition set_eng (s : shared) (e : engine) : shared :=
  {| w_mem := w_mem s; w_dict := w_dict s; w_eng := e; w_gpio := w_gpio s |}.
Definition set_gpio (s : shared) (g : gpio) : shared :=
  {| w_mem := w_mem s; w_dict := w_dict s; w_eng := w_eng s; w_gpio := g |}.

(** Pins 0..31; remove_pin asserts the range (cnc/hal_raspberry/rpgpio.py:339). *)
Definition all_pins : list Z := map Z.of_nat (seq 0 32).
(** len(self._clear_pins) == 0. *)
Definition no_pins (d : Z -> option Z) : bool :=
  forallb (fun p => match d p with None => true | Some _ => false end) all_pins.

(** Where a thread is inside add_pin(pin, duty) with block_number [b] ([k] = Some b) or
    remove_pin(pin) ([k] = None); line numbers of cnc/hal_raspberry/rpgpio.py. *)
Inductive pc : Type :=
| Done
| RemTest (pin : Z) (k : option Z)              (* 340-341 *)
| RemRead1 (pin : Z) (k : option Z) (a : Z)     (* 342 *)
| RemWrite1 (pin : Z) (k : option Z) (a v : Z)  (* 343-344 *)
| RemRead2 (pin : Z) (k : option Z)             (* 345 *)
| RemWrite2 (pin : Z) (k : option Z) (v : Z)    (* 346-347 *)
| RemDel (pin : Z) (k : option Z)               (* 348 *)
| RemLow (pin : Z) (k : option Z)               (* 349 *)
| RemEmpty (pin : Z) (k : option Z)             (* 350, first condition *)
| RemActive (pin : Z) (k : option Z)            (* 350, second condition *)
| RemStop (pin : Z) (k : option Z)              (* 351 *)
| AddBranch (pin b : Z)                         (* 317-319 *)
| AddLow (pin : Z)                              (* 318 *)
| AddHigh (pin : Z)                             (* 320 *)
| AddHighDict (pin : Z)                         (* 321 *)
| AddRead1 (pin b : Z)                          (* 323 *)
| AddWrite1 (pin b v : Z)                       (* 324-325 *)
| AddRead2 (pin b : Z)                          (* 328 *)
| AddWrite2 (pin b v : Z)                       (* 329-330 *)
| AddDict (pin b : Z)                           (* 331 *)
| AddActive (pin b : Z)                         (* 332 *)
| AddRun (pin b : Z).                           (* 333 *)

(** After remove_pin: return, or go on in add_pin. *)
Definition removed (pin : Z) (k : option Z) : pc :=
  match k with
  | None => Done
  | Some b => AddBranch pin b
  end.

(** One step of a thread, cnc/hal_raspberry/rpgpio.py:308-351. *)
Definition tstep (s : shared) (t : pc) : shared * pc :=
  match t with
  | Done => (s, Done)
  | RemTest pin k => (s, match w_dict s pin with Some a => RemRead1 pin k a | None => RemEmpty pin k end)
  | RemRead1 pin k a => (s, RemWrite1 pin k a (w_mem s (base + a)))
  | RemWrite1 pin k a v => (set_mem s (mset (w_mem s) (base + a) (Z.land v (Z.lnot (Z.shiftl 1 pin)))), RemRead2 pin k)
  | RemRead2 pin k => (s, RemWrite2 pin k (w_mem s (base + 24)))
  | RemWrite2 pin k v => (set_mem s (mset (w_mem s) (base + 24) (Z.land v (Z.lnot (Z.shiftl 1 pin)))), RemDel pin k)
  | RemDel pin k => (set_dict s pin None, RemLow pin k)
  | RemLow pin k => (set_gpio s (reg_write (w_gpio s) 40 (Z.shiftl 1 pin)), RemEmpty pin k)
  | RemEmpty pin k => (s, if no_pins (w_dict s) then RemActive pin k else removed pin k)
  | RemActive pin k => (s, if e_active (w_eng s) then RemStop pin k else removed pin k)
  | RemStop pin k => (set_eng s stop_dma, removed pin k)
  | AddBranch pin b => (s, if b =? 0 then AddLow pin else if b =? 256 then AddHigh pin else AddRead1 pin b)
  | AddLow pin => (set_gpio s (reg_write (w_gpio s) 40 (Z.shiftl 1 pin)), Done)
  | AddHigh pin => (set_gpio s (reg_write (w_gpio s) 28 (Z.shiftl 1 pin)), AddHighDict pin)
  | AddHighDict pin => (set_dict s pin (Some 24), Done)
  | AddRead1 pin b => (s, AddWrite1 pin b (w_mem s (base + 24)))
  | AddWrite1 pin b v => (set_mem s (mset (w_mem s) (base + 24) (Z.lor v (Z.shiftl 1 pin))), AddRead2 pin b)
  | AddRead2 pin b => (s, AddWrite2 pin b (w_mem s (base + (b * 32 + 24))))
  | AddWrite2 pin b v => (set_mem s (mset (w_mem s) (base + (b * 32 + 24)) (Z.lor v (Z.shiftl 1 pin))), AddDict pin b)
  | AddDict pin b => (set_dict s pin (Some (b * 32 + 24)), AddActive pin b)
  | AddActive pin b => (s, if e_active (w_eng s) then Done else AddRun pin b)
  | AddRun pin b => (set_eng s (run_dma (w_mem s) base), Done)
  end.

(** The DMA engine executes one control block. *)
Definition estep (s : shared) : shared :=
  set_gpio (set_eng s (advance (w_mem s) (w_eng s))) (apply_actions (w_gpio s) (performed false (w_mem s) (w_eng s))).

(** State after __init__; no pin is driven by the PWM yet. *)
Definition pwm0 (m : mem) (g : gpio) : shared :=
  {| w_mem := pwm_memory m; w_dict := fun _ => None; w_eng := stopped; w_gpio := g |}.

End Pwm.
