(** Control blocks of the BCM2835 DMA controller as used by
    cnc/hal_raspberry/rpgpio.py: what the hardware does with the memory the program
    prepares. Bit numbers are those of cnc/hal_raspberry/rpgpio_private.py:49-72.

    Simplifications: memory is a map from byte addresses (multiples of 4) on the bus to
    32-bit words; a transfer is a list of word accesses; bus priorities, bursts and
    wait cycles only influence timing and are left out. The number of rows of a
    two-dimensional transfer is YLENGTH as the comment in rpgpio.py:114 says, or
    YLENGTH + 1 as on some hardware: [extra] covers both. *)
From Coq Require Import ZArith Bool List.
From Verif Require Import PyBase.
Import ListNotations.
Local Open Scope Z_scope.

Definition mem : Type := Z -> Z.
(** PhysicalMemory.write_int, cnc/hal_raspberry/rpgpio_private.py:138-139; [a] is the bus
    address, i.e. the offset in the buffer plus get_bus_address(). *)
Definition mset (m : mem) (a v : Z) : mem := fun x => if x =? a then v mod 2 ^ 32 else m x.
(** Format "I" of struct.pack_into, cnc/hal_raspberry/rpgpio_private.py:142. *)
Definition is_u32 (v : Z) : bool := (0 <=? v) && (v <? 2 ^ 32).

(** What a transfer does on the bus. *)
Inductive action : Type :=
| Store (addr v : Z)        (* a word is written *)
| Paced (addr bytes : Z)    (* [bytes] bytes are written at the pace of the peripheral *)
| Ignored (bytes : Z).      (* [bytes] bytes are read and thrown away *)

Section Engine.
Variable extra : bool.

(** One row: [n] words. *)
Fixpoint row (m : mem) (src_inc dst_inc : bool) (src dst : Z) (n : nat) : list action :=
  match n with
  | O => []
  | S k => Store dst (m src) :: row m src_inc dst_inc (if src_inc then src + 4 else src) (if dst_inc then dst + 4 else dst) k
  end.
(** Address after a row of [n] words. *)
Definition after (inc : bool) (a : Z) (n : nat) : Z := if inc then a + 4 * Z.of_nat n else a.
(** [rows] rows of [n] words; strides are added after each row. *)
Fixpoint rows_of (m : mem) (src_inc dst_inc : bool) (src dst s_stride d_stride : Z) (n rows : nat) : list action :=
  match rows with
  | O => []
  | S k => row m src_inc dst_inc src dst n ++
           rows_of m src_inc dst_inc (after src_inc src n + s_stride) (after dst_inc dst n + d_stride) s_stride d_stride n k
  end.

(** Words of a transfer of [bytes] bytes. *)
Definition words (bytes : Z) : nat := Z.to_nat ((bytes + 3) / 4).
(** Two's complement of 16 bits. *)
Definition s16 (v : Z) : Z := if v <? 2 ^ 15 then v else v - 2 ^ 16.

(** The transfer described by the control block at [cb]. TI bits:
    rpgpio_private.py:49-57; fields of TXFR_LEN and STRIDE: lines 67-70. *)
Definition transfer (m : mem) (cb : Z) : list action :=
  let ti := m cb in
  let src := m (cb + 4) in
  let dst := m (cb + 8) in
  let len := m (cb + 12) mod 2 ^ 30 in
  let stride := m (cb + 16) in
  let src_inc := Z.testbit ti 8 in
  let dst_inc := Z.testbit ti 4 in
  if Z.testbit ti 7 then [Ignored len]                      (* DMA_DEST_IGNORE *)
  else if Z.testbit ti 6 then [Paced dst len]               (* DMA_TI_DEST_DREQ *)
  else if Z.testbit ti 1 then                               (* DMA_TI_TDMODE *)
    rows_of m src_inc dst_inc src dst (s16 (stride mod 2 ^ 16)) (s16 (stride / 2 ^ 16))
            (words (len mod 2 ^ 16)) (Z.to_nat (len / 2 ^ 16) + if extra then 1 else 0)
  else row m src_inc dst_inc src dst (words len).

(** NEXTCONBK of the control block at [cb] (hardware). *)
Definition next_cb (m : mem) (cb : Z) : Z := m (cb + 20).

(** The engine, started at [cb], performs the transfers [l] and stops (address 0). *)
Inductive plays (m : mem) : Z -> list action -> Prop :=
| plays_stop : plays m 0 []
| plays_block cb l : cb <> 0 -> plays m (next_cb m cb) l -> plays m cb (transfer m cb ++ l).

(** Registers of a DMA channel: ACTIVE bit, address of the control block being executed,
    and its NEXTCONBK, which the program may overwrite. *)
Record engine : Type := { e_active : bool; e_cb : Z; e_next : Z }.
Definition stopped : engine := {| e_active := false; e_cb := 0; e_next := 0 |}.

(** DMAProto._run_dma, cnc/hal_raspberry/rpgpio_private.py:213-222; the four register
    writes are one step. *)
Definition run_dma (m : mem) (base : Z) : engine :=
  {| e_active := true; e_cb := base; e_next := next_cb m base |}.
(** DMAProto._stop_dma, cnc/hal_raspberry/rpgpio_private.py:224-233 (abort and reset). *)
Definition stop_dma : engine := stopped.
(** DMAProto.is_active, cnc/hal_raspberry/rpgpio_private.py:235-243, is [e_active]. *)

(** The hardware completes the current block and loads the next one. *)
Definition advance (m : mem) (e : engine) : engine :=
  if e_active e then
    if e_next e =? 0 then stopped
    else {| e_active := true; e_cb := e_next e; e_next := next_cb m (e_next e) |}
  else e.
(** What it did. *)
Definition performed (m : mem) (e : engine) : list action :=
  if e_active e then transfer m (e_cb e) else [].

End Engine.
