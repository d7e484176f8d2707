(** The converter ADS1115 as seen from the I2C bus (hardware, from the data sheet
    SBAS444, sections 8.5 and 8.6): used as a specification in the statements about
    cnc/sensors/ads111x.py. The two comparator registers are left out. *)
From Coq Require Import ZArith Bool List.
Import ListNotations.
Local Open Scope Z_scope.

(** Pointer register, config register, conversion register; [c_busy]: a conversion is
    going on. *)
Record chip : Type := { c_pointer : Z; c_config : Z; c_conversion : Z; c_busy : bool }.

(** Fields of the config register (data sheet, table 8-3): start, input, range, single shot. *)
Definition os_bit (w : Z) : bool := Z.testbit w 15.
Definition mux_bits (w : Z) : Z := Z.land (Z.shiftr w 12) 7.
Definition pga_bits (w : Z) : Z := Z.land (Z.shiftr w 9) 7.
Definition single_bit (w : Z) : bool := Z.testbit w 8.

(** A write transfer: the first byte goes to the pointer register, two more to the register
    it points to, high byte first. A conversion starts with a 1 in the start bit, or if the
    chip is not in single shot mode. *)
Definition chip_write (d : list Z) (c : chip) : chip :=
  match d with
  | [p] => {| c_pointer := p; c_config := c_config c; c_conversion := c_conversion c; c_busy := c_busy c |}
  | [p; hi; lo] =>
      if p =? 1 then
        let w := hi * 256 + lo in
        {| c_pointer := p; c_config := w; c_conversion := c_conversion c;
           c_busy := c_busy c || os_bit w || negb (single_bit w) |}
      else {| c_pointer := p; c_config := c_config c; c_conversion := c_conversion c; c_busy := c_busy c |}
  | _ => c
  end.

(** A read transfer of two bytes, high byte first. The start bit reads as 0 while a
    conversion is going on. *)
Definition read_word (c : chip) : Z :=
  if c_pointer c =? 0 then c_conversion c mod 65536
  else Z.land (c_config c) 32767 + (if c_busy c then 0 else 32768).
Definition chip_read (c : chip) : list Z := [read_word c / 256; read_word c mod 256].

(** The end of a conversion: the result, here [sense] of input and range, goes to the
    conversion register; in single shot mode the chip then rests. *)
Definition chip_done (sense : Z -> Z -> Z) (c : chip) : chip :=
  if c_busy c then
    {| c_pointer := c_pointer c; c_config := c_config c;
       c_conversion := sense (mux_bits (c_config c)) (pga_bits (c_config c));
       c_busy := negb (single_bit (c_config c)) |}
  else c.

(** What is measured with the settings of the four pins [ain], in units of the caller's
    choice (data sheet, table 8-3): differences for 0 to 3, single pins for 4 to 7. *)
Definition input_of {A} (minus : A -> A -> A) (ain : Z -> A) (mux : Z) : A :=
  if mux =? 0 then minus (ain 0) (ain 1) else if mux =? 1 then minus (ain 0) (ain 3)
  else if mux =? 2 then minus (ain 1) (ain 3) else if mux =? 3 then minus (ain 2) (ain 3)
  else ain (mux - 4).
(** Range in millivolts (data sheet, table 8-3). *)
Definition range_mv (pga : Z) : Z :=
  if pga =? 0 then 6144 else if pga =? 1 then 4096 else if pga =? 2 then 2048
  else if pga =? 3 then 1024 else if pga =? 4 then 512 else 256.
