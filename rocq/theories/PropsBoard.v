(** Property C79: the board is recognised (cnc/hal_raspberry/rpgpio_private.py:11-34,
    cnc/hal.py:99-104). *)
From Coq Require Import String Ascii Bool Arith ZArith List Lia.
From Verif Require Import PyBase GCode Board BoardSpec BoardProofs.
Import ListNotations.
Local Open Scope Z_scope.

Notation words := list_ascii_of_string.

(** For every file of the kernel of a Raspberry Pi: the registers of the processor
    are used exactly for the BCM2836 and BCM2837, for the codes of the old style (without
    flags) and for two codes of the new style. Missing: the other boards with a
    BCM2835 (Zero, flags) and those with a BCM2711, for which it is false. *)
Theorem C79_base_partial : forall ls h n c,
  Forall plain ls -> proper h -> (exists a b, h = a ++ words "BCM2" ++ b)%list -> 0 <= n < 2 ^ 32 -> chip_of n = Some c ->
  says ls (words "Hardware") h -> says ls (words "Revision") (revision_text n) ->
  choose (Some (file ls)) = Raspberry (peripherals c) <-> c = BCM2836 \/ c = BCM2837 \/ n <= 21 \/ n = 0x900021 \/ n = 0x900032.
Proof. exact board_base. Qed.
Print Assumptions C79_base_partial.

Definition cpuinfo (h r : string) : list text :=
  [words "processor"; tab :: words ": 0"; []; line (words "Hardware") (words h); line (words "Revision") (words r); line (words "Serial") (words "0000000012345678")].
Lemma not_in_lf (l : text) : existsb is_lf l = false -> plain l.
Proof. intros E I. assert (existsb is_lf l = true) by (apply existsb_exists; exists lf; auto). congruence. Qed.
Lemma not_other w l : strip w l = None -> other w l.
Proof. intros E r ->. exfalso. assert (X: strip w (w ++ r) = Some r) by now apply strip_some. congruence. Qed.
Ltac cpu := 
  match goal with
  | |- Forall plain _ => repeat (constructor; [apply not_in_lf; vm_compute; reflexivity|]); constructor
  | |- Forall (other _) _ => repeat (constructor; [apply not_other; vm_compute; reflexivity|]); constructor
  | |- proper _ => eexists; eexists; split; [reflexivity|]; split; [reflexivity|apply not_in_lf; vm_compute; reflexivity]
  end.
Lemma cpu_hardware h r : says (cpuinfo h r) (words "Hardware") (words h).
Proof. exists [words "processor"; tab :: words ": 0"; []], [line (words "Revision") (words r); line (words "Serial") (words "0000000012345678")]. split; [reflexivity|cpu]. Qed.
Lemma cpu_revision h r : says (cpuinfo h r) (words "Revision") (words r).
Proof.
  exists [words "processor"; tab :: words ": 0"; []; line (words "Hardware") (words h)], [line (words "Serial") (words "0000000012345678")]. split; [reflexivity|].
  repeat (constructor; [apply not_other; reflexivity|]); constructor.
Qed.
(** A Raspberry Pi 3. *)
Example C79_base_partial_ex : Forall plain (cpuinfo "BCM2709" "a02082") /\ proper (words "BCM2709") /\ (exists a b, words "BCM2709" = a ++ words "BCM2" ++ b)%list /\
  0 <= 0xa02082 < 2 ^ 32 /\ chip_of 0xa02082 = Some BCM2837 /\ says (cpuinfo "BCM2709" "a02082") (words "Hardware") (words "BCM2709") /\
  says (cpuinfo "BCM2709" "a02082") (words "Revision") (revision_text 0xa02082).
Proof.
  split; [cpu|]. split; [cpu|]. split; [exists [], (words "709"); reflexivity|]. split; [lia|]. split; [reflexivity|].
  split; [apply cpu_hardware|]. change (revision_text 0xa02082) with (words "a02082"). apply cpu_revision.
Qed.

(** Raspberry Pi Zero W (9000c1): the registers of the wrong processor. *)
Theorem C79_base_refuted : exists ls h n c, Forall plain ls /\ proper h /\ (exists a b, h = a ++ words "BCM2" ++ b)%list /\ chip_of n = Some c /\ c <> BCM2711 /\
  says ls (words "Hardware") h /\ says ls (words "Revision") (revision_text n) /\
  exists b, choose (Some (file ls)) = Raspberry b /\ b <> peripherals c.
Proof.
  exists (cpuinfo "BCM2835" "9000c1"), (words "BCM2835"), 0x9000c1, BCM2835.
  split; [cpu|]. split; [cpu|]. split; [exists [], (words "835"); reflexivity|]. split; [reflexivity|]. split; [discriminate|]. split; [apply cpu_hardware|].
  split; [change (revision_text 0x9000c1) with (words "9000c1"); apply cpu_revision|]. exists 0x3F000000. split; [vm_compute; reflexivity|discriminate].
Qed.
Print Assumptions C79_base_refuted.

(** Computers that are no Raspberry Pi: the virtual device is used if the file can not
    be read, if it has no line "Hardware", or if the hardware has another name and the
    revision is not one of those of the first Raspberry Pi. *)
Theorem C79_virtual_partial : choose None = Virtual /\
  (forall ls, Forall plain ls -> Forall (other (words "Hardware")) ls -> choose (Some (file ls)) = Virtual) /\
  forall ls h rev, Forall plain ls -> proper h -> proper rev -> says ls (words "Hardware") h -> says ls (words "Revision") rev ->
    ~ (exists a b, h = a ++ words "BCM2" ++ b)%list -> (forall n, 0 <= n <= 21 \/ n = 0x900021 \/ n = 0x900032 -> rev <> revision_text n) ->
    choose (Some (file ls)) = Virtual.
Proof.
  split; [reflexivity|]. split; [exact board_none|]. intros ls h rev Pl Ph Pr Sh Sr Nh Nr. apply (board_other ls h rev); auto.
  intros I. vm_compute in I. 
  repeat (destruct I as [I|I]; [match type of I with ?x = _ => 
    first [apply (Nr 2); [lia|now rewrite <- I]|apply (Nr 3); [lia|now rewrite <- I]|apply (Nr 4); [lia|now rewrite <- I]|apply (Nr 5); [lia|now rewrite <- I]|apply (Nr 6); [lia|now rewrite <- I]
          |apply (Nr 7); [lia|now rewrite <- I]|apply (Nr 8); [lia|now rewrite <- I]|apply (Nr 9); [lia|now rewrite <- I]|apply (Nr 13); [lia|now rewrite <- I]|apply (Nr 14); [lia|now rewrite <- I]
          |apply (Nr 15); [lia|now rewrite <- I]|apply (Nr 16); [lia|now rewrite <- I]|apply (Nr 17); [lia|now rewrite <- I]|apply (Nr 18); [lia|now rewrite <- I]|apply (Nr 19); [lia|now rewrite <- I]
          |apply (Nr 20); [lia|now rewrite <- I]|apply (Nr 21); [lia|now rewrite <- I]|apply (Nr 0x900021); [lia|now rewrite <- I]|apply (Nr 0x900032); [lia|now rewrite <- I]] end|]). exact I.
Qed.
Print Assumptions C79_virtual_partial.
Example C79_virtual_partial_ex : Forall plain (cpuinfo "Allwinner sun8i Family" "0020") /\ proper (words "Allwinner sun8i Family") /\ proper (words "0020") /\
  says (cpuinfo "Allwinner sun8i Family" "0020") (words "Hardware") (words "Allwinner sun8i Family") /\
  says (cpuinfo "Allwinner sun8i Family" "0020") (words "Revision") (words "0020") /\
  ~ (exists a b, words "Allwinner sun8i Family" = a ++ words "BCM2" ++ b)%list /\
  (forall n, 0 <= n <= 21 \/ n = 0x900021 \/ n = 0x900032 -> words "0020" <> revision_text n) /\
  Forall (other (words "Hardware")) [words "processor"; line (words "vendor_id") (words "GenuineIntel")] /\
  Forall plain [words "processor"; line (words "vendor_id") (words "GenuineIntel")].
Proof.
  split; [cpu|]. split; [cpu|]. split; [cpu|]. split; [apply cpu_hardware|]. split; [apply cpu_revision|]. split; [|split; [|split; cpu]].
  - intros H. apply contains_spec in H. discriminate H.
  - intros n Hn E. apply (f_equal number) in E. rewrite number_revision in E by lia. change (number (words "0020")) with 32 in E. lia.
Qed.

(** A file with a line "Hardware" and none with "Revision": AttributeError, which
    cnc/hal.py does not catch; a board of another maker with the revision 0010 is
    taken for a Raspberry Pi, and the program writes to its physical memory. *)
Theorem C79_virtual_refuted : (exists ls, Forall plain ls /\ says ls (words "Hardware") (words "Qualcomm") /\ choose (Some (file ls)) = NoDevice) /\
  exists ls, Forall plain ls /\ says ls (words "Hardware") (words "Qualcomm") /\ says ls (words "Revision") (words "0010") /\ choose (Some (file ls)) = Raspberry 0x20000000.
Proof.
  split.
  - exists [line (words "Hardware") (words "Qualcomm")]. split; [cpu|]. split; [exists [], []; split; [reflexivity|constructor]|vm_compute; reflexivity].
  - exists (cpuinfo "Qualcomm" "0010"). split; [cpu|]. split; [apply cpu_hardware|]. split; [apply cpu_revision|vm_compute; reflexivity].
Qed.
Print Assumptions C79_virtual_refuted.
