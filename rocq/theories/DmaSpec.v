(** What one sees at the pins while a DMA program plays, and what one should see.
    Addresses: BCM2835 peripherals manual, GPIO at 0x7E200000, PWM at 0x7E20C000. *)
From Coq Require Import ZArith Bool List.
From Verif Require Import Dma DmaGpio.
Import ListNotations.
Local Open Scope Z_scope.

(** Pins whose bits are set in the mask go high or low at a time in microseconds;
    [Strange]: an access to something else. *)
Inductive event : Type :=
| Rise (t mask : Z)
| Fall (t mask : Z)
| Strange.

Definition rise (t mask : Z) : list event := if mask =? 0 then [] else [Rise t mask].
Definition fall (t mask : Z) : list event := if mask =? 0 then [] else [Fall t mask].

(** Seen: 0x1C sets pins, 0x28 clears pins, 0x34 is read-only (writing it does nothing);
    the FIFO of the PWM takes 16 bytes per microsecond. *)
Fixpoint seen (t : Z) (l : list action) : list event :=
  match l with
  | [] => []
  | Store a v :: r =>
      (if a =? 0x7E20001C then rise t v
       else if a =? 0x7E200028 then fall t v
       else if a =? 0x7E200034 then [] else [Strange]) ++ seen t r
  | Paced a n :: r => if a =? 0x7E20C018 then seen (t + n / 16) r else Strange :: seen t r
  | Ignored n :: r => Strange :: seen t r
  end.

(** Asked for. *)
Fixpoint asked (t : Z) (l : list req) : list event :=
  match l with
  | [] => []
  | Pulse mask us :: r => rise t mask ++ fall (t + us) mask ++ asked (t + us) r
  | Delay us :: r => asked (t + us) r
  | SetClear s c :: r => rise t s ++ fall t c ++ asked t r
  end.

(** Masks of 32 pins, and delays below 2^26 microseconds (about 67 seconds). *)
Definition mask_ok (m : Z) : Prop := 0 <= m < 2 ^ 32.
Definition sane (r : req) : Prop :=
  match r with
  | Pulse m us => mask_ok m /\ 0 <= us < 2 ^ 26
  | Delay us => 0 <= us < 2 ^ 26
  | SetClear s c => mask_ok s /\ mask_ok c
  end.
(** Bytes of buffer used. *)
Definition bytes_of (r : req) : Z := match r with Pulse _ _ => 96 | _ => 32 end.
Definition bytes (l : list req) : Z := fold_right (fun r n => bytes_of r + n) 0 l.

(** A buffer of the kernel: whole pages, not at address 0, inside the 32-bit bus. *)
Definition buffer_ok (base size : Z) : Prop :=
  0 < base /\ 0 <= size /\ base + size < 2 ^ 32 /\ base mod 4096 = 0.

(** Any call of a method of DMAGPIO, and a program that goes on after an exception. *)
Inductive dcall : Type := CAdd (r : req) | CFinalize | CRun (loop : bool) | CClear.
Definition do_call (base size : Z) (d : dma) (c : dcall) : dma :=
  match c with
  | CAdd r => fst (add base size d r)
  | CFinalize => fst (finalize_stream base size d)
  | CRun loop => fst (run base size d loop)
  | CClear => clear d
  end.
Definition do_calls (base size : Z) (d : dma) (l : list dcall) : dma := fold_left (do_call base size) l d.
