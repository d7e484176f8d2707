(** What the firmware and the operating system make of the calls of Mailbox.v. *)
From Coq Require Import ZArith Bool List.
From Verif Require Import PyBase Mailbox.
Import ListNotations.
Local Open Scope Z_scope.

(** A message with one tag, as the documentation of the mailbox property interface
    describes it: total size in bytes, request code 0, tag, size of the value buffer in
    bytes, length of the request (bit 31 clear), the values, and the end tag 0. *)
Definition parse (d : list Z) : option (Z * list Z) :=
  match d with
  | total :: code :: tag :: room :: len :: rest =>
    let n := Z.to_nat (room / 4) in
    if (total =? 4 * Z.of_nat (length d)) && (code =? 0) && negb (tag =? 0) && (room mod 4 =? 0) && (0 <=? len) && (len <=? room) && (len <? 2 ^ 31)
    then match skipn n rest with
         | [z] => if z =? 0 then Some (tag, firstn n rest) else None
         | _ => None
         end
    else None
  | _ => None
  end.

(** The requests about memory: allocate (size, alignment, flags), lock, unlock and
    release (handle). *)
Inductive request : Type :=
| Allocate (size align : Z)
| Lock (h : Z)
| Unlock (h : Z)
| Release (h : Z).
Definition understood (d : list Z) : option request :=
  match parse d with
  | Some (tag, args) =>
    if tag =? 0x3000c then match args with [size; align; _] => Some (Allocate size align) | _ => None end
    else if tag =? 0x3000d then match args with [h] => Some (Lock h) | _ => None end
    else if tag =? 0x3000e then match args with [h] => Some (Unlock h) | _ => None end
    else if tag =? 0x3000f then match args with [h] => Some (Release h) | _ => None end
    else None
  | None => None
  end.

Definition without (x : Z) (l : list Z) : list Z := remove Z.eq_dec x l.
(** Blocks of memory the process holds after some calls (latest first): answer 0 means
    that there is no memory. *)
Fixpoint held (l : history) : list Z :=
  match l with
  | [] => []
  | (Ioctl _ d, Ok v) :: r =>
    match understood d with
    | Some (Allocate _ _) => if v =? 0 then held r else v :: held r
    | Some (Release h) => without h (held r)
    | _ => held r
    end
  | _ :: r => held r
  end.
(** Blocks that are locked, that is, have an address on the bus. *)
Fixpoint locked (l : history) : list Z :=
  match l with
  | [] => []
  | (Ioctl _ d, Ok v) :: r =>
    match understood d with
    | Some (Lock h) => if v =? 0 then locked r else h :: locked r
    | Some (Unlock h) => without h (locked r)
    | _ => locked r
    end
  | _ :: r => locked r
  end.
(** Open file descriptors, and mappings. *)
Fixpoint opened (l : history) : list Z :=
  match l with
  | [] => []
  | (Open _, Ok fd) :: r => if fd <? 0 then opened r else fd :: opened r
  | (Close fd, Ok _) :: r => without fd (opened r)
  | _ :: r => opened r
  end.
Fixpoint mapped (l : history) : list Z :=
  match l with
  | [] => []
  | (Mmap _ _ _, Ok m) :: r => m :: mapped r
  | (Unmap m, Ok _) :: r => without m (mapped r)
  | _ :: r => mapped r
  end.

(** A call makes sense after the calls before it: what it is about exists, whole pages
    are allocated, a block is locked once, unlocked when it is locked and released when it
    is not. *)
Definition sensible (l : history) (c : call) : Prop :=
  match c with
  | Open _ => True
  | Ioctl fd d => In fd (opened l) /\
    match understood d with
    | Some (Allocate size align) => size mod 4096 = 0 /\ align = 4096
    | Some (Lock h) => In h (held l) /\ ~ In h (locked l)
    | Some (Unlock h) => In h (held l) /\ In h (locked l)
    | Some (Release h) => In h (held l) /\ ~ In h (locked l)
    | None => False
    end
  | Mmap fd _ off => In fd (opened l) /\ off mod 4096 = 0
  | Close fd => In fd (opened l)
  | Unmap m => In m (mapped l)
  end.
Fixpoint all_sensible (l : history) : Prop :=
  match l with
  | [] => True
  | (c, _) :: r => sensible r c /\ all_sensible r
  end.
(** Nothing is left. *)
Definition nothing_held (l : history) : Prop := held l = [] /\ locked l = [] /\ opened l = [] /\ mapped l = [].

(** What is assumed about the operating system and the firmware: descriptors, mappings
    and handles are not given twice; handles and addresses are words. *)
Definition honest (sys : os) : Prop := forall l c v, sys l c = Ok v ->
  match c with
  | Open _ => 0 <= v -> ~ In v (opened l)
  | Mmap _ _ _ => ~ In v (mapped l)
  | Ioctl _ d => 0 <= v < 2 ^ 32 /\ match understood d with Some (Allocate _ _) => v <> 0 -> ~ In v (held l) | _ => True end
  | _ => True
  end.
(** Giving back does not fail. *)
Definition gives_back (c : call) : Prop :=
  match c with
  | Close _ | Unmap _ => True
  | Ioctl _ d => match understood d with Some (Unlock _) | Some (Release _) => True | _ => False end
  | _ => False
  end.
Definition calm (sys : os) : Prop := forall l c e, gives_back c -> sys l c <> Raise e.
