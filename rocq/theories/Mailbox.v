(** Model of the memory classes of cnc/hal_raspberry/rpgpio_private.py:113-203 and of
    the objects that cnc/hal_raspberry/hal.py:10-13 creates when it is imported: system
    calls, messages to the firmware, and the functions registered with atexit.

    The operating system and the firmware are one arbitrary function of the calls made
    before. Simplifications: a call returns one number or raises, and for an ioctl the
    number is the word data[5] that the program reads; reading and writing mapped memory
    is in Dma.v; an exception in a function registered with atexit is printed and the
    next function runs. *)
From Coq Require Import ZArith Bool List.
From Verif Require Import PyBase Dma.
Import ListNotations.
Local Open Scope Z_scope.

Inductive device : Type := DevMem | DevVcio.
(** os.open, fcntl.ioctl with a mutable buffer, mmap.mmap, os.close, mmap.close:
    lines 122-137, 191. *)
Inductive call : Type :=
| Open (d : device)
| Ioctl (fd : Z) (data : list Z)
| Mmap (fd size offset : Z)
| Close (fd : Z)
| Unmap (map : Z).
(** Calls and their results, the latest first. *)
Definition history : Type := list (call * res Z).
Definition os : Type := history -> call -> res Z.

(** Functions registered with atexit: self.cleanup (line 126) and self.free (line 170). *)
Inductive handler : Type :=
| Cleanup (map : Z)
| FreeMemory (handle fd : Z).
(** The calls so far, and the registered functions, the latest first. *)
Record proc : Type := { p_calls : history; p_exit : list handler }.
Definition proc0 : proc := {| p_calls := []; p_exit := [] |}.

(** Code with these effects, and sequencing. *)
Definition prog (A : Type) : Type := proc -> proc * res A.
Definition ret {A : Type} (a : A) : prog A := fun s => (s, Ok a).
Definition raise {A : Type} (e : exn) : prog A := fun s => (s, Raise e).
Definition bind {A B : Type} (m : prog A) (f : A -> prog B) : prog B :=
  fun s => match m s with
           | (s, Ok a) => f a s
           | (s, Raise e) => (s, Raise e)
           end.
Notation "'let!' x <- m ; k" := (bind m (fun x => k))
  (at level 200, x pattern, m at level 100, k at level 200, right associativity).

Section Mailbox.
Variable sys : os.

Definition sys_call (c : call) : prog Z := fun s =>
  let r := sys (p_calls s) c in
  ({| p_calls := (c, r) :: p_calls s; p_exit := p_exit s |}, r).
(** atexit.register. *)
Definition at_exit (h : handler) : prog unit := fun s =>
  ({| p_calls := p_calls s; p_exit := h :: p_exit s |}, Ok tt).

(** PhysicalMemory._open_dev, lines 131-136. *)
Definition open_dev (d : device) : prog Z :=
  let! fd <- sys_call (Open d);
  if fd <? 0 then raise IOErr else ret fd.

(** PAGE_SIZE, line 35. *)
Definition page : Z := 4096.

(** PhysicalMemory.__init__, lines 115-126. *)
Definition phys_init (address size : Z) : prog unit :=
  let address := address - address mod page in
  let! fd <- open_dev DevMem;
  let! map <- sys_call (Mmap fd size address);
  let! _ <- sys_call (Close fd);
  at_exit (Cleanup map).

(** The buffer of _send_data, lines 183-190. *)
Definition message (request : Z) (args : list Z) : list Z :=
  let n := Z.of_nat (length args) in
  [24 + 4 * n; 0; request; 4 * n; 4 * n] ++ args ++ [0].
(** CMAPhysicalMemory._send_data, lines 182-192. array('I') refuses numbers that do not fit. *)
Definition send_data (fd request : Z) (args : list Z) : prog Z :=
  if forallb is_u32 (message request args) then sys_call (Ioctl fd (message request args))
  else raise OverflowError.

(** get_phys_address, lines 197-198. *)
Definition phys_address (bus : Z) : Z := Z.land bus (Z.lnot (Z.shiftl 3 30)).

(** CMAPhysicalMemory.__init__, lines 151-170; returns the bus address and the size. *)
Definition cma_init (size : Z) : prog (Z * Z) :=
  let size := (size + page - 1) / page * page in
  let! fd <- open_dev DevVcio;
  let! handle <- send_data fd 0x3000c [size; page; 12];
  if handle =? 0 then raise IOErr
  else
    let! bus <- send_data fd 0x3000d [handle];
    if bus =? 0 then raise IOErr
    else
      let! _ <- phys_init (phys_address bus) size;
      let! _ <- at_exit (FreeMemory handle fd);
      ret (bus, size).

(** The objects created on import: mappings of registers (one page), and buffers for
    control blocks. *)
Inductive object : Type :=
| Registers (address : Z)
| Buffer (size : Z).
Definition create (o : object) : prog unit :=
  match o with
  | Registers a => phys_init a page
  | Buffer n => let! _ <- cma_init n; ret tt
  end.
Fixpoint create_all (l : list object) : prog unit :=
  match l with
  | [] => ret tt
  | o :: r => let! _ <- create o; create_all r
  end.

(** The functions registered with atexit: lines 128-129 and 172-177. *)
Definition run_handler (h : handler) : prog unit :=
  match h with
  | Cleanup m => let! _ <- sys_call (Unmap m); ret tt
  | FreeMemory handle fd =>
    let! _ <- send_data fd 0x3000e [handle];
    let! _ <- send_data fd 0x3000f [handle];
    let! _ <- sys_call (Close fd);
    ret tt
  end.
Fixpoint run_handlers (l : list handler) (s : proc) : proc :=
  match l with
  | [] => s
  | h :: r => run_handlers r (fst (run_handler h s))
  end.
(** The end of the process: the latest registered function is called first. *)
Definition exit_process (s : proc) : history :=
  p_calls (run_handlers (p_exit s) {| p_calls := p_calls s; p_exit := [] |}).

End Mailbox.

(** The objects of hal.py:10-13 in the order of their creation, with the constructors in
    rpgpio.py:16-21 (GPIO), 87-103 (DMAGPIO), 265-291 (DMAPWM), 367-372 (DMAWatchdog) and
    rpgpio_private.py:202-211 (DMAProto); [peri] is PERI_BASE. *)
Definition hal_objects (peri : Z) : list object :=
  let gpio := Registers (peri + 2097152) in       (* 0x200000 *)
  let dma := Registers (peri + 28672) in          (* 0x7000 *)
  [ gpio;
    Buffer (30 * 1024 * 1024); dma; Registers (peri + 2146304) (* 0x20C000 *); Registers (peri + 1052672) (* 0x101000 *);
    Buffer (256 * 32); dma; gpio;
    Buffer (32 * (2047 + 1)); dma ].
