(** Model of class GPIO in cnc/hal_raspberry/rpgpio.py and of the GPIO registers of the
    BCM2835 it writes to. Register numbers are byte offsets from the GPIO base, taken
    from cnc/hal_raspberry/rpgpio_private.py:35-41. The set-up times of the pull-up
    clock and the memory mapping are not modelled. *)
From Coq Require Import ZArith Bool List.
From Verif Require Import Dma.
Import ListNotations.
Local Open Scope Z_scope.

(** State of the GPIO block: function select registers, output latches, pull of each
    pin (0 none, 1 down, 2 up) and the pull control register. *)
Record gpio : Type := {
  g_fsel : Z -> Z;
  g_latch : Z -> bool;
  g_pull : Z -> Z;
  g_pud : Z
}.

(** ctypes.c_uint32, cnc/hal_raspberry/rpgpio_private.py:138-139. *)
Definition u32 (v : Z) : Z := v mod 2 ^ 32.

(** Pin [p] belongs to the 32 pins from [first] on and its bit is set in [v]. *)
Definition selects (first v p : Z) : bool := (first <=? p) && (p <? first + 32) && Z.testbit v (p - first).

(** Effect of writing a word to a register (hardware; offsets from
    cnc/hal_raspberry/rpgpio_private.py:36-41). *)
Definition reg_write (g : gpio) (off v : Z) : gpio :=
  let fsel k := {| g_fsel := fun j => if j =? k then u32 v else g_fsel g j;
                   g_latch := g_latch g; g_pull := g_pull g; g_pud := g_pud g |} in
  let set first := {| g_fsel := g_fsel g; g_latch := fun p => g_latch g p || selects first (u32 v) p;
                      g_pull := g_pull g; g_pud := g_pud g |} in
  let clr first := {| g_fsel := g_fsel g; g_latch := fun p => g_latch g p && negb (selects first (u32 v) p);
                      g_pull := g_pull g; g_pud := g_pud g |} in
  let clk first := {| g_fsel := g_fsel g; g_latch := g_latch g;
                      g_pull := fun p => if selects first (u32 v) p then g_pud g mod 4 else g_pull g p;
                      g_pud := g_pud g |} in
  if (0 <=? off) && (off <? 24) then fsel (off / 4)
  else if off =? 28 then set 0                                  (* 0x1C *)
  else if off =? 32 then set 32                                 (* 0x20 *)
  else if off =? 40 then clr 0                                  (* 0x28 *)
  else if off =? 44 then clr 32                                 (* 0x2C *)
  else if off =? 148 then {| g_fsel := g_fsel g; g_latch := g_latch g; g_pull := g_pull g; g_pud := u32 v |}  (* 0x94 *)
  else if off =? 152 then clk 0                                 (* 0x98 *)
  else if off =? 156 then clk 32                                (* 0x9C *)
  else g.

(** Reading a register; [lev] are the two level registers, i.e. the voltages at the pins. *)
Definition reg_read (g : gpio) (lev : Z -> Z) (off : Z) : Z :=
  if (0 <=? off) && (off <? 24) then g_fsel g (off / 4)
  else if off =? 52 then lev 0                                  (* 0x34 *)
  else if off =? 56 then lev 1                                  (* 0x38 *)
  else if off =? 148 then g_pud g
  else 0.

(** Effect of DMA transfers on the GPIO block, which is at bus address 0x7E200000
    (PHYSICAL_GPIO_BUS, cnc/hal_raspberry/rpgpio_private.py:42). *)
Definition gpio_bus : Z := 0x7E000000 + 0x200000.
Definition apply_action (g : gpio) (a : action) : gpio :=
  match a with
  | Store addr v => reg_write g (addr - gpio_bus) v
  | _ => g
  end.
Definition apply_actions (g : gpio) (l : list action) : gpio := fold_left apply_action l g.

(** MODE_*, cnc/hal_raspberry/rpgpio.py:11-14. *)
Inductive pin_mode : Type := ModeOutput | ModeInputNoPull | ModeInputPullUp | ModeInputPullDown.

Section Gpio.
Variable lev : Z -> Z.

(** GPIO._pull_up_dn, cnc/hal_raspberry/rpgpio.py:23-36. int(pin / 32) is the integer
    quotient for the pin numbers 0..53. *)
Definition pull_up_dn (g : gpio) (pin : Z) (mode : pin_mode) : gpio :=
  let p := Z.land (reg_read g lev 148) (Z.lnot 3) in
  let p := match mode with
           | ModeInputPullUp => Z.lor p 2
           | ModeInputPullDown => Z.lor p 1
           | _ => p
           end in
  let g := reg_write g 148 p in
  let address := 4 * (pin / 32) + 152 in
  let g := reg_write g address (Z.shiftl 1 (pin mod 32)) in
  let p := Z.land (reg_read g lev 148) (Z.lnot 3) in
  let g := reg_write g 148 p in
  reg_write g address 0.

(** GPIO.init, cnc/hal_raspberry/rpgpio.py:38-51. *)
Definition gpio_init (g : gpio) (pin : Z) (mode : pin_mode) : gpio :=
  let address := 4 * (pin / 10) + 0 in
  let v := Z.land (reg_read g lev address) (Z.lnot (Z.shiftl 7 ((pin mod 10) * 3))) in
  match mode with
  | ModeOutput => reg_write g address (Z.lor v (Z.shiftl 1 ((pin mod 10) * 3)))
  | _ => pull_up_dn (reg_write g address v) pin mode
  end.

(** GPIO.set, cnc/hal_raspberry/rpgpio.py:53-58. *)
Definition gpio_set (g : gpio) (pin : Z) : gpio :=
  reg_write g (4 * (pin / 32) + 28) (Z.shiftl 1 (pin mod 32)).
(** GPIO.clear, cnc/hal_raspberry/rpgpio.py:60-65. *)
Definition gpio_clear (g : gpio) (pin : Z) : gpio :=
  reg_write g (4 * (pin / 32) + 40) (Z.shiftl 1 (pin mod 32)).
(** GPIO.read, cnc/hal_raspberry/rpgpio.py:67-77. *)
Definition gpio_read (g : gpio) (pin : Z) : Z :=
  let v := Z.land (reg_read g lev (4 * (pin / 32) + 52)) (Z.shiftl 1 (pin mod 32)) in
  if v =? 0 then 0 else 1.

End Gpio.
