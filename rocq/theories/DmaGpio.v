(** Model of class DMAGPIO in cnc/hal_raspberry/rpgpio.py:83-256. The configuration of the
    PWM clock (run_stream, lines 197-217) is not modelled: the hardware consumes 16 bytes
    per microsecond in a paced transfer. *)
From Coq Require Import ZArith Bool List.
From Verif Require Import PyBase Dma.
Import ListNotations.
Local Open Scope Z_scope.

Section DmaGpio.
(** Bus address and size of the allocated buffer, cnc/hal_raspberry/rpgpio.py:97. *)
Variable base size : Z.

(** _delay_info, lines 106-108. *)
Definition delay_info : Z :=
  Z.lor (Z.lor (Z.lor (Z.shiftl 1 26) (Z.shiftl 1 11)) (Z.shiftl 5 16)) (Z.shiftl 1 6).
(** _delay_destination, line 109: the FIFO of the PWM. *)
Definition pwm_fifo : Z := 0x7E000000 + 0x0020C000 + 0x18.
(** _pulse_info, lines 112-113. *)
Definition pulse_info : Z := Z.lor (Z.lor (Z.shiftl 1 26) (Z.shiftl 1 1)) (Z.shiftl 1 3).
(** _pulse_destination, line 114. *)
Definition pulse_destination : Z := 0x7E000000 + 0x200000 + 0x1C.
(** _pulse_length, lines 116-117. *)
Definition pulse_length : Z := Z.lor (Z.shiftl (Z.land 2 0x3fff) 16) (Z.land 4 0xffff).
(** _pulse_stride, lines 118-119. *)
Definition pulse_stride : Z := Z.lor (Z.shiftl (Z.land 12 0xffff) 16) (Z.land 4 0xffff).

(** __current_address and the buffer. *)
Record dma : Type := { d_addr : Z; d_mem : mem }.

(** struct.pack_into, cnc/hal_raspberry/rpgpio_private.py:142: words up to the first one
    that does not fit into 32 bits are written. *)
Fixpoint pack (m : mem) (a : Z) (l : list Z) : mem * res unit :=
  match l with
  | [] => (m, Ok tt)
  | v :: r => if is_u32 v then pack (mset m a v) (a + 4) r else (m, Raise StructError)
  end.
(** The last two statements of the three methods. *)
Definition put (d : dma) (data : list Z) (next_cb : Z) : dma * res unit :=
  match pack (d_mem d) (base + d_addr d) data with
  | (m, Ok _) => ({| d_addr := next_cb; d_mem := m |}, Ok tt)
  | (m, Raise e) => ({| d_addr := d_addr d; d_mem := m |}, Raise e)
  end.

(** add_pulse, cnc/hal_raspberry/rpgpio.py:121-152. *)
Definition add_pulse (d : dma) (pins_mask length_us : Z) : dma * res unit :=
  let next_cb := d_addr d + 3 * 32 in
  if next_cb >? size then (d, Raise MemoryError)
  else
    let next3 := next_cb + base in
    let next2 := next3 - 32 in
    let next1 := next2 - 32 in
    let source1 := next1 - 8 in
    let length2 := Z.shiftl length_us 4 in
    let source3 := next3 - 8 in
    put d [pulse_info; source1; pulse_destination; pulse_length; pulse_stride; next1; pins_mask; 0;
           delay_info; 0; pwm_fifo; length2; 0; next2; 0; 0;
           pulse_info; source3; pulse_destination; pulse_length; pulse_stride; next3; 0; pins_mask] next_cb.

(** add_delay, cnc/hal_raspberry/rpgpio.py:154-169. *)
Definition add_delay (d : dma) (delay_us : Z) : dma * res unit :=
  let next_cb := d_addr d + 32 in
  if next_cb >? size then (d, Raise MemoryError)
  else
    let next1 := base + next_cb in
    let source := next1 - 8 in
    put d [delay_info; source; pwm_fifo; Z.shiftl delay_us 4; 0; next1; 0; 0] next_cb.

(** add_set_clear, cnc/hal_raspberry/rpgpio.py:171-187. *)
Definition add_set_clear (d : dma) (pins_to_set pins_to_clear : Z) : dma * res unit :=
  let next_cb := d_addr d + 32 in
  if next_cb >? size then (d, Raise MemoryError)
  else
    let next1 := base + next_cb in
    let source := next1 - 8 in
    put d [pulse_info; source; pulse_destination; pulse_length; pulse_stride; next1; pins_to_set; pins_to_clear] next_cb.

(** finalize_stream, cnc/hal_raspberry/rpgpio.py:189-193; ctypes refuses an offset
    outside the buffer with ValueError. *)
Definition finalize_stream (d : dma) : dma * res unit :=
  let off := d_addr d + 20 - 32 in
  if (0 <=? off) && (off + 4 <=? size)
  then ({| d_addr := d_addr d; d_mem := mset (d_mem d) (base + off) 0 |}, Ok tt)
  else (d, Raise ValueError).

(** run, cnc/hal_raspberry/rpgpio.py:219-232, up to starting the engine at [base]. *)
Definition run (d : dma) (loop : bool) : dma * res unit :=
  if d_addr d =? 0 then (d, Raise RuntimeError)
  else if loop then
    let off := d_addr d + 20 - 32 in
    if (0 <=? off) && (off + 4 <=? size)
    then ({| d_addr := d_addr d; d_mem := mset (d_mem d) (base + off) base |}, Ok tt)
    else (d, Raise ValueError)
  else finalize_stream d.

(** clear, cnc/hal_raspberry/rpgpio.py:240-244. *)
Definition clear (d : dma) : dma := {| d_addr := 0; d_mem := d_mem d |}.

(** A call of one of the three methods. *)
Inductive req : Type :=
| Pulse (mask us : Z)
| Delay (us : Z)
| SetClear (s c : Z).
Definition add (d : dma) (r : req) : dma * res unit :=
  match r with
  | Pulse m us => add_pulse d m us
  | Delay us => add_delay d us
  | SetClear s c => add_set_clear d s c
  end.
(** Calls one after the other; an exception ends the sequence. *)
Fixpoint adds (d : dma) (l : list req) : dma * res unit :=
  match l with
  | [] => (d, Ok tt)
  | r :: t => match add d r with
              | (d, Ok _) => adds d t
              | (d, Raise e) => (d, Raise e)
              end
  end.

End DmaGpio.
