(** Vocabulary for property C79: files as the kernel writes them, revision codes of
    the boards. *)
From Coq Require Import String Ascii Bool Arith ZArith List.
From Verif Require Import GCode.
Import ListNotations.
Local Open Scope Z_scope.

Definition lf : ascii := ascii_of_nat 10.
Definition tab : ascii := ascii_of_nat 9.

(** A file made of lines. *)
Fixpoint file (ls : list text) : text :=
  match ls with [] => [] | l :: r => (l ++ lf :: file r)%list end.
(** A text inside one line. *)
Definition plain (l : text) : Prop := ~ In lf l.
(** The line does not begin with the word, unless a character follows it that is no blank. *)
Definition other (word l : text) : Prop := forall r, l = (word ++ r)%list -> exists c r', r = c :: r' /\ is_blank c = false.
(** The line "name<tab>: value" with a value that does not begin with a blank. *)
Definition line (name value : text) : text := (name ++ tab :: list_ascii_of_string ": " ++ value)%list.
Definition proper (value : text) : Prop := exists c r, value = c :: r /\ is_blank c = false /\ plain value.

(** [ls] gives [name] the value [v]: the first line that begins with the name and a blank is that line. *)
Definition says (ls : list text) (name v : text) : Prop :=
  exists l1 l2, ls = (l1 ++ line name v :: l2)%list /\ Forall (other name) l1.

(** The kernel writes the revision with "%04x". *)
Definition hex_digit (n : Z) : ascii := nth (Z.to_nat n) (list_ascii_of_string "0123456789abcdef") "0"%char.
Fixpoint hex (k : nat) (n : Z) : text :=
  match k with
  | O => []
  | S k' => if n <? 16 then [hex_digit n] else (hex k' (n / 16) ++ [hex_digit (n mod 16)])%list
  end.
Definition revision_text (n : Z) : text := let h := hex 8 n in (repeat "0"%char (4 - length h) ++ h)%list.

(** Revision codes of the Raspberry Pi documentation: bit 23 marks the new style with
    the processor in bits 12-15; old codes 2-9 and d-15 are boards with a BCM2835.
    Bits from 24 on are flags (warranty, over-voltage, one time programmable memory). *)
Inductive chip := BCM2835 | BCM2836 | BCM2837 | BCM2711.
Definition chip_of (n : Z) : option chip :=
  if Z.testbit n 23 then
    match Z.land (Z.shiftr n 12) 15 with 0 => Some BCM2835 | 1 => Some BCM2836 | 2 => Some BCM2837 | 3 => Some BCM2711 | _ => None end
  else
    let m := Z.land n 0xFFFFFF in
    if ((2 <=? m) && (m <=? 9)) || ((13 <=? m) && (m <=? 21)) then Some BCM2835 else None.
(** Where the processor sees its peripherals. *)
Definition peripherals (c : chip) : Z :=
  match c with BCM2835 => 0x20000000 | BCM2836 | BCM2837 => 0x3F000000 | BCM2711 => 0xFE000000 end.
