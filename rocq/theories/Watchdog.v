(** Model of class DMAWatchdog in cnc/hal_raspberry/rpgpio.py:362-412. *)
From Coq Require Import ZArith Bool List.
From Verif Require Import PyBase Dma DmaGpio Gpio.
Import ListNotations.
Local Open Scope Z_scope.

(** Flags of the delay blocks, lines 383-384, and of the last block, line 392. *)
Definition wait_info : Z :=
  Z.lor (Z.lor (Z.lor (Z.shiftl 1 26) (Z.shiftl 1 7)) (Z.shiftl 1 3)) (Z.shiftl 31 21).
Definition off_info : Z := Z.lor (Z.lor (Z.shiftl 1 26) (Z.shiftl 1 3)) (Z.shiftl 1 4).

(** [data], cnc/hal_raspberry/rpgpio.py:379-395: [n] delay blocks from bus address [ba] on,
    and the last block. *)
Fixpoint wd_data (ba : Z) (n : nat) : list Z :=
  match n with
  | O => [off_info; ba + 24; gpio_bus + 0; 12; 0; 0; 0; 0]
  | S k => [wait_info; ba + 24; ba + 28; 65535; 0; ba + 32; 0; 0] ++ wd_data (ba + 32) k
  end.
(** start, cnc/hal_raspberry/rpgpio.py:374-397: memory afterwards; the engine is then
    [run_dma]. *)
Definition wd_memory (base : Z) (m : mem) : mem := fst (pack m base (wd_data base 2047)).
(** feed, cnc/hal_raspberry/rpgpio.py:404-408. A channel that has stopped ignores it. *)
Definition feed (base : Z) (e : engine) : engine :=
  if e_active e then {| e_active := true; e_cb := e_cb e; e_next := base |} else e.

(** What happens after start: the hardware completes a block, the program feeds the
    watchdog, the program or another DMA channel writes to a GPIO register that is not a
    function-select register. *)
Inductive op : Type :=
| Tick
| Feed
| Use (off v : Z).
Record world : Type := { x_eng : engine; x_gpio : gpio }.
Definition op_step (base : Z) (m : mem) (x : world) (o : op) : world :=
  match o with
  | Tick => {| x_eng := advance m (x_eng x); x_gpio := apply_actions (x_gpio x) (performed false m (x_eng x)) |}
  | Feed => {| x_eng := feed base (x_eng x); x_gpio := x_gpio x |}
  | Use off v => {| x_eng := x_eng x; x_gpio := if off <? 24 then x_gpio x else reg_write (x_gpio x) off v |}
  end.
Definition after_ops (base : Z) (m : mem) (g : gpio) (l : list op) : world :=
  fold_left (op_step base m) l {| x_eng := run_dma m base; x_gpio := g |}.
