(** Properties C46-C50, C54 and C56: GPIO, DMA programs, PWM and watchdog of
    cnc/hal_raspberry/rpgpio.py. Every theorem is followed by its assumptions and by an
    Example in which its hypotheses hold. *)
From Coq Require Import ZArith Bool Lia List Reals.
From Flocq Require Import Core BinarySingleNaN.
From Verif Require Import PyBase PyNum PyFloatFacts Dma DmaGpio DmaSpec DmaGpioProofs Gpio GpioProofs Pwm PwmSpec PwmProofs PwmFloat PwmRace Watchdog WatchdogProofs.
From Coq Require Import List.
Import ListNotations.
Local Open Scope Z_scope.

(* ================= C56 ================= *)
(** init gives the pin its function (1 output, 0 input) and pull resistor; every other
    pin keeps its function, pull resistor and level. *)
Theorem C56_init lev g pin mode p : 0 <= pin < 54 -> 0 <= p < 54 ->
  function_of (gpio_init lev g pin mode) p =
    (if p =? pin then match mode with ModeOutput => 1 | _ => 0 end else function_of g p) /\
  g_latch (gpio_init lev g pin mode) p = g_latch g p /\
  g_pull (gpio_init lev g pin mode) p =
    (if p =? pin
     then match mode with
          | ModeOutput => g_pull g p
          | ModeInputNoPull => 0
          | ModeInputPullDown => 1
          | ModeInputPullUp => 2
          end
     else g_pull g p).
Proof.
  intros H Hp. destruct (init_spec lev g pin mode p H Hp) as (A & B & C). split; [exact A|]. split; [exact B|].
  rewrite C. destruct (p =? pin), mode; reflexivity.
Qed.
Print Assumptions C56_init.
(** Pin 23 becomes an input with pull-up, pin 22 next to it stays an output. *)
Example C56_init_nonvacuous :
  let g := gpio_init (fun _ => 0) blank 22 ModeOutput in
  let g' := gpio_init (fun _ => 0) g 23 ModeInputPullUp in
  function_of g' 22 = 1 /\ function_of g' 23 = 0 /\ g_pull g' 23 = 2 /\ g_pull g' 22 = 0.
Proof. vm_compute. auto. Qed.

Theorem C56_set_clear g pin p : 0 <= pin < 54 -> 0 <= p < 54 ->
  (g_latch (gpio_set g pin) p = if p =? pin then true else g_latch g p) /\
  (g_latch (gpio_clear g pin) p = if p =? pin then false else g_latch g p) /\
  function_of (gpio_set g pin) p = function_of g p /\ function_of (gpio_clear g pin) p = function_of g p /\
  g_pull (gpio_set g pin) p = g_pull g p /\ g_pull (gpio_clear g pin) p = g_pull g p.
Proof.
  intros H Hp. destruct (set_frame g pin H) as (S1 & S2 & _). destruct (clear_frame g pin H) as (C1 & C2 & _).
  unfold function_of. rewrite S1, S2, C1, C2. split; [now apply latch_set|]. split; [now apply latch_clear|auto].
Qed.
Print Assumptions C56_set_clear.
Example C56_set_clear_nonvacuous :
  let g := gpio_set (gpio_set blank 4) 36 in
  g_latch g 4 = true /\ g_latch g 36 = true /\ g_latch (gpio_clear g 4) 4 = false /\ g_latch (gpio_clear g 4) 36 = true.
Proof. vm_compute. auto. Qed.

(** read is 1 if the voltage at the pin is high and 0 if it is low. *)
Theorem C56_read lev g pin : 0 <= pin < 54 -> gpio_read lev g pin = if level_of lev pin then 1 else 0.
Proof. exact (read_level g lev pin). Qed.
Print Assumptions C56_read.
Example C56_read_nonvacuous : gpio_read (fun k => if k =? 1 then 16 else 0) blank 36 = 1 /\ gpio_read (fun k => if k =? 1 then 16 else 0) blank 35 = 0.
Proof. vm_compute. auto. Qed.

(** Used with vm_compute: a pair whose second component is known. *)
Lemma surjective_pairing_ok {A} (x : A * res unit) : snd x = Ok tt -> x = (fst x, Ok tt).
Proof. destruct x. cbn. congruence. Qed.

(* ================= C49 ================= *)
(** Calls with masks of 32 pins and delays below 2^26 us (67 s) that fit into the buffer:
    the engine started by run shows exactly what was asked for and stops. [extra]: both
    readings of the two-dimensional mode in the BCM2835 manual. *)
Theorem C49_plays_partial (extra : bool) base size d l t :
  buffer_ok base size -> Forall sane l -> l <> [] -> bytes l <= size ->
  exists d1 d2 tr, adds base size (clear d) l = (d1, Ok tt) /\ run base size d1 false = (d2, Ok tt) /\
    plays extra (d_mem d2) base tr /\ seen t tr = asked t l /\
    (forall tr', plays extra (d_mem d2) base tr' -> tr' = tr).
Proof.
  intros B S Hl Hb. destruct (program_plays extra base size d l t B S Hl Hb) as (d1 & d2 & tr & A & R & P & E & _).
  exists d1, d2, tr. repeat split; try assumption. intros tr' P'. exact (plays_det extra _ _ _ P' _ P).
Qed.
Print Assumptions C49_plays_partial.
Example C49_nonvacuous : buffer_ok 8192 4096 /\ Forall sane [SetClear 1 2; Pulse 4 2; Delay 100; Pulse 12 2] /\
  bytes [SetClear 1 2; Pulse 4 2; Delay 100; Pulse 12 2] <= 4096 /\
  asked 0 [SetClear 1 2; Pulse 4 2; Delay 100; Pulse 12 2] = [Rise 0 1; Fall 0 2; Rise 0 4; Fall 2 4; Rise 102 12; Fall 104 12].
Proof.
  split; [repeat split; lia|]. split; [repeat (apply Forall_cons; [cbn; unfold mask_ok; lia|]); apply Forall_nil|].
  split; [cbn; lia|reflexivity].
Qed.

(** Delays of 2^26 us and more: accepted without an exception, but the engine, whose
    length register has 30 bits, waits for another time. Here 67108864 us become 0. *)
Theorem C49_refuted : exists base size d l d1 d2 tr,
  buffer_ok base size /\ l <> [] /\ bytes l <= size /\
  adds base size (clear d) l = (d1, Ok tt) /\ run base size d1 false = (d2, Ok tt) /\
  plays false (d_mem d2) base tr /\ asked 0 l = [Rise 67108864 4; Fall 67108866 4] /\ seen 0 tr = [Rise 0 4; Fall 2 4].
Proof.
  set (l := [Delay 67108864; Pulse 4 2]). set (d := {| d_addr := 0; d_mem := fun _ => 0 |}).
  set (a := adds 8192 4096 (clear d) l). set (b := run 8192 4096 (fst a) false).
  exists 8192, 4096, d, l, (fst a), (fst b).
  exists (transfer false (d_mem (fst b)) 8192 ++ transfer false (d_mem (fst b)) 8224 ++ transfer false (d_mem (fst b)) 8256 ++ transfer false (d_mem (fst b)) 8288 ++ []).
  split; [repeat split; lia|]. split; [discriminate|]. split; [cbn; lia|].
  split; [apply surjective_pairing_ok; vm_compute; reflexivity|]. split; [apply surjective_pairing_ok; vm_compute; reflexivity|].
  split; [|split; [reflexivity|vm_compute; reflexivity]].
  apply plays_block; [lia|]. replace (next_cb (d_mem (fst b)) 8192) with 8224 by (vm_compute; reflexivity).
  apply plays_block; [lia|]. replace (next_cb (d_mem (fst b)) 8224) with 8256 by (vm_compute; reflexivity).
  apply plays_block; [lia|]. replace (next_cb (d_mem (fst b)) 8256) with 8288 by (vm_compute; reflexivity).
  apply plays_block; [lia|]. replace (next_cb (d_mem (fst b)) 8288) with 0 by (vm_compute; reflexivity).
  apply plays_stop.
Qed.
Print Assumptions C49_refuted.

(* ================= C50 ================= *)
(** Whatever methods are called, with whatever arguments, and exceptions ignored:
    nothing outside the buffer changes. *)
Theorem C50_inside base size d l : 0 <= size -> 0 <= d_addr d <= size ->
  forall x, x < base \/ base + size <= x -> d_mem (do_calls base size d l) x = d_mem d x.
Proof. intros S H. exact (proj2 (calls_inside base size l d S H)). Qed.
Print Assumptions C50_inside.
Example C50_inside_nonvacuous : let d := do_calls 4096 64 {| d_addr := 0; d_mem := fun _ => 7 |} [CAdd (Delay 5); CAdd (Pulse 1 2); CAdd (SetClear 1 (-1)); CAdd (Delay 6); CRun true] in
  d_addr d = 64 /\ d_mem d 4160 = 7 /\ d_mem d (4128 + 12) = 96.
Proof. vm_compute. auto. Qed.

(** A call that does not fit raises MemoryError and changes nothing; one that fits does
    not raise it. The address where the next block goes stays inside the buffer. *)
Theorem C50_full base size d l r : 0 <= size -> 0 <= d_addr d <= size ->
  let d' := do_calls base size d l in
  (size < d_addr d' + bytes_of r -> add base size d' r = (d', Raise MemoryError)) /\
  (d_addr d' + bytes_of r <= size -> snd (add base size d' r) <> Raise MemoryError) /\
  0 <= d_addr d' <= size.
Proof.
  intros S H d'. split; [apply add_full|]. split; [|exact (proj1 (calls_inside base size l d S H))].
  intros L E. rewrite add_put in E by exact L. exact (put_no_memory_error _ _ _ _ E).
Qed.
Print Assumptions C50_full.
Example C50_full_nonvacuous : let d := do_calls 4096 64 {| d_addr := 0; d_mem := fun _ => 7 |} [CAdd (Delay 5)] in
  64 < d_addr d + bytes_of (Pulse 1 2) /\ d_addr d + bytes_of (Delay 1) <= 64.
Proof. vm_compute. split; [reflexivity|discriminate]. Qed.

(* ================= C46 ================= *)
Section Pwm.
Variable acos : f64 -> f64.
Notation N := (F64 acos).
Variable base : Z.
(** The kernel's buffer of 256 blocks is not at address 0 and inside the 32-bit bus. *)
Hypothesis base_ok : 0 < base /\ base + 8192 < 2 ^ 32.

Lemma blocks_F64 : forall (d : N) b, block_number (N := F64 acos) d = Ok b -> 0 <= b <= 256.
Proof. intros d b H. apply (block_number_F64 acos d b) in H. tauto. Qed.

(** [wanted h p] slots of 256 are int(duty * 256 / 100) of the newest call for the pin. *)
Theorem C46_slots (d : N) b : block_number (N := F64 acos) d = Ok b ->
  0 <= b <= 256 /\ (0 <= val d <= 100)%R /\ (Rabs (IZR b - val d * 256 / 100) < 1 + bpow radix2 (-40))%R.
Proof. intros H. destruct (block_number_F64 acos d b H) as (_ & A & B & C). auto. Qed.
(** No duty cycle between 0 and 100 is refused. *)
Theorem C46_accepted (d : N) : fin d -> (0 <= val d <= 100)%R -> exists b, block_number (N := F64 acos) d = Ok b.
Proof. exact (block_number_total acos d). Qed.

(** Between calls: when the engine is at the first block, then after j+1 more blocks,
    for each j < 256, the pin is high iff j < wanted; so in each round of 256 blocks it
    is high for the first [wanted] of them. After 256 blocks the engine is at the first
    block again. *)
Theorem C46_duty (h : list (call N)) s : runs base h s Done -> e_active (w_eng s) = true -> e_cb (w_eng s) = base ->
  (forall j p, (j < 256)%nat -> 0 <= p < 32 -> high (later (S j) s) p = (Z.of_nat j <? wanted h p)) /\
  e_active (w_eng (later 256 s)) = true /\ e_cb (w_eng (later 256 s)) = base.
Proof. exact (runs_round base base_ok blocks_F64 h s). Qed.

(** The engine does come to the first block; pins that are removed or at 0 are low, pins at
    100 % are high all the time; if the engine is stopped, there are no others. *)
Theorem C46_levels (h : list (call N)) s p : runs base h s Done -> 0 <= p < 32 ->
  (wanted h p = 0 -> high s p = false) /\ (wanted h p = 256 -> high s p = true) /\
  (0 < wanted h p < 256 -> e_active (w_eng s) = true) /\ 0 <= wanted h p <= 256.
Proof. exact (runs_level base base_ok blocks_F64 h s p). Qed.
Theorem C46_first_block (h : list (call N)) s : runs base h s Done -> e_active (w_eng s) = true ->
  exists n, (n < 256)%nat /\ e_active (w_eng (later n s)) = true /\ e_cb (w_eng (later n s)) = base.
Proof. exact (runs_first base base_ok blocks_F64 h s Done). Qed.

(* ================= C48 ================= *)
(** After remove_pin, and during and after any calls for other pins, whatever blocks the
    engine executes: low. [wanted h p = 0]: the newest call for p is remove_pin (or
    add_pin with less than one slot). Transfers of single blocks are atomic here. *)
Theorem C48_low (h : list (call N)) s t p : runs base h s t -> 0 <= p < 32 -> wanted h p = 0 ->
  (t = Done \/ forall c r, h = c :: r -> pin_of c <> p) -> forall n, high (later n s) p = false.
Proof. intros H Hp W O n. exact (runs_low base base_ok blocks_F64 h (later n s) t p (runs_later base h s t n H) Hp W O). Qed.

(* ================= C47 ================= *)
(** Two threads: heater pin 18 at half power is removed while pin 22 is added in another
    thread. Both calls have returned, but pin 18 is high for ever. *)
Theorem C47_refuted : exists (h : list (call N)) s,
  runs2 4096 h s Done Done /\ h = [CallAdd 22 (f_ofZ 50 : N); CallRemove 18; CallAdd 18 (f_ofZ 50 : N)] /\
  wanted h 18 = 0 /\ forall n, high (later n s) 18 = true.
Proof.
  exists (race_calls (N := F64 acos) (f_ofZ 50)), (sh r3).
  split; [apply (race_runs (N := F64 acos)); vm_compute; reflexivity|]. split; [reflexivity|]. split; [reflexivity|exact race_high].
Qed.

(** If the transfer of a block is not atomic, C48 fails even with one thread. *)
Theorem C48_needs_atomic_blocks : exists (h : list (call N)) s,
  runs_split 4096 h s Done [] /\ h = [CallRemove 18; CallAdd 22 (f_ofZ 50 : N); CallAdd 18 (f_ofZ 50 : N)] /\
  wanted h 18 = 0 /\ forall n, high (later n s) 18 = true.
Proof.
  exists (slow_calls (N := F64 acos) (f_ofZ 50)), q4.
  split; [apply (slow_runs (N := F64 acos)); vm_compute; reflexivity|]. split; [reflexivity|]. split; [reflexivity|exact slow_high].
Qed.

(** Pin 18 at 50 %, then pin 22 at 25 %, then pin 18 removed. *)
Lemma runs_tacts (h : list (call N)) n : forall x, runs 4096 h (fst x) (snd x) -> runs 4096 h (fst (tacts n x)) (snd (tacts n x)).
Proof. induction n as [|n IH]; intros x H; [exact H|]. change (tacts (S n) x) with (tstep 4096 (fst (tacts n x)) (snd (tacts n x))). apply runs_thread. now apply IH. Qed.
Definition ex1 : shared * pc := tacts 20 (pwm0 4096 (fun _ => 0) blank, RemTest 18 (Some 128)).
Definition ex2 : shared * pc := tacts 20 (fst ex1, RemTest 22 (Some 64)).
Definition ex3 : shared * pc := tacts 20 (fst ex2, RemTest 18 None).
Definition h1 : list (call N) := [CallAdd 18 (f_ofZ 50 : N)].
Definition h2 : list (call N) := CallAdd 22 (f_ofZ 25 : N) :: h1.
Definition h3 : list (call N) := CallRemove 18 :: h2.
Lemma ex_runs : runs 4096 h2 (fst ex2) Done /\ runs 4096 h3 (fst ex3) Done.
Proof.
  assert (A1: runs 4096 h1 (fst ex1) (snd ex1)).
  { unfold ex1. apply runs_tacts. cbn [fst snd]. apply runs_call; [now apply runs_init|]. constructor; [lia|vm_compute; reflexivity]. }
  assert (E1: snd ex1 = Done) by (vm_compute; reflexivity). rewrite E1 in A1.
  assert (A2: runs 4096 h2 (fst ex2) (snd ex2)).
  { unfold ex2. apply runs_tacts. cbn [fst snd]. apply runs_call; [exact A1|]. constructor; [lia|vm_compute; reflexivity]. }
  assert (E2: snd ex2 = Done) by (vm_compute; reflexivity). rewrite E2 in A2.
  assert (A3: runs 4096 h3 (fst ex3) (snd ex3)).
  { unfold ex3. apply runs_tacts. cbn [fst snd]. apply runs_call; [exact A2|]. constructor. lia. }
  assert (E3: snd ex3 = Done) by (vm_compute; reflexivity). rewrite E3 in A3. auto.
Qed.
Example C46_nonvacuous : runs 4096 h2 (fst ex2) Done /\ e_active (w_eng (fst ex2)) = true /\ e_cb (w_eng (fst ex2)) = 4096 /\
  wanted h2 18 = 128 /\ wanted h2 22 = 64.
Proof. split; [apply ex_runs|]. repeat split; vm_compute; reflexivity. Qed.
Example C46_slots_nonvacuous : block_number (N := F64 acos) (f_ofZ 99) = Ok 253.
Proof. vm_compute. reflexivity. Qed.
Example C48_nonvacuous : runs 4096 h3 (fst ex3) Done /\ wanted h3 18 = 0 /\ wanted h3 22 = 64 /\ e_active (w_eng (fst ex3)) = true /\
  high (later 1 (fst ex3)) 22 = true /\ high (later 1 (fst ex2)) 18 = true.
Proof. split; [apply ex_runs|]. repeat split; vm_compute; reflexivity. Qed.
End Pwm.
Print Assumptions C46_slots.
Print Assumptions C46_accepted.
Print Assumptions C46_duty.
Print Assumptions C46_levels.
Print Assumptions C46_first_block.
Print Assumptions C47_refuted.
Print Assumptions C48_low.
Print Assumptions C48_needs_atomic_blocks.

(* ================= C54 ================= *)
(** Whatever else happened before and happens meanwhile (completed blocks, feeds,
    accesses to other GPIO registers): 2049 completed blocks without a feed make pins
    0-29 inputs, and they stay inputs. From the start 2048 blocks are enough. *)
Theorem C54_bites base m g l1 l2 : 0 < base /\ base + 65536 < 2 ^ 32 -> unfed l2 -> 2049 <= ticks l2 ->
  forall p, 0 <= p < 30 -> function_of (x_gpio (after_ops base (wd_memory base m) g (l1 ++ l2))) p = 0.
Proof. intros B. exact (watchdog_bites base B m g l1 l2). Qed.
Print Assumptions C54_bites.
Theorem C54_bites_first base m g l : 0 < base /\ base + 65536 < 2 ^ 32 -> unfed l -> 2048 <= ticks l ->
  forall p, 0 <= p < 30 -> function_of (x_gpio (after_ops base (wd_memory base m) g l)) p = 0.
Proof. intros B. exact (watchdog_first base B m g l). Qed.
Print Assumptions C54_bites_first.
(** Fed at least once in 2046 completed blocks: it keeps running and no pin changes its
    function. *)
Theorem C54_quiet base m g l : 0 < base /\ base + 65536 < 2 ^ 32 -> fed 0 l ->
  e_active (x_eng (after_ops base (wd_memory base m) g l)) = true /\
  forall p, function_of (x_gpio (after_ops base (wd_memory base m) g l)) p = function_of g p.
Proof. intros B. exact (watchdog_quiet base B m g l). Qed.
Print Assumptions C54_quiet.
(** One block more is too late. *)
Theorem C54_late base m g l : 0 < base /\ base + 65536 < 2 ^ 32 -> unfed l -> ticks l = 2047 ->
  forall p, 0 <= p < 30 -> function_of (x_gpio (after_ops base (wd_memory base m) g (l ++ [Feed; Tick]))) p = 0.
Proof. intros B. exact (watchdog_late base B m g l). Qed.
Print Assumptions C54_late.

Lemma ticks_repeat n l : ticks (repeat Tick n ++ l) = Z.of_nat n + ticks l.
Proof. induction n as [|n IH]; [reflexivity|]. cbn [repeat app ticks]. rewrite IH. lia. Qed.
Lemma unfed_repeat n : unfed (repeat Tick n).
Proof. induction n; [exact I|assumption]. Qed.
Lemma fed_repeat n l : forall k, k + Z.of_nat n <= 2046 -> fed (k + Z.of_nat n) l -> fed k (repeat Tick n ++ l).
Proof.
  induction n as [|n IH]; intros k H F.
  - cbn. replace (k + Z.of_nat 0) with k in F by lia. exact F.
  - cbn [repeat app fed]. split; [lia|]. apply IH; [lia|]. now replace (k + 1 + Z.of_nat n) with (k + Z.of_nat (S n)) by lia.
Qed.
(** Pins 18 (output) and 23: fed once after 2046 blocks, and after 2046 more still running;
    the heater pin is set meanwhile. *)
Example C54_nonvacuous :
  let l := repeat Tick 2046 ++ Feed :: Use 28 (Z.shiftl 1 18) :: repeat Tick 2046 in
  let g := gpio_init (fun _ => 0) blank 18 ModeOutput in
  fed 0 l /\ unfed (Use 28 4 :: repeat Tick 2049) /\ 2049 <= ticks (Use 28 4 :: repeat Tick 2049 ++ []) /\ function_of g 18 = 1 /\
  unfed (repeat Tick 2047) /\ ticks (repeat Tick 2047 ++ []) = 2047.
Proof.
  cbv zeta. split; [|split; [exact (unfed_repeat 2049)|split; [cbn [ticks]; rewrite ticks_repeat; cbn [ticks]; lia|split; [vm_compute; reflexivity|split; [exact (unfed_repeat 2047)|]]]]].
  - apply fed_repeat; [lia|]. cbn [fed]. rewrite <- (app_nil_r (repeat Tick 2046)). apply fed_repeat; [lia|exact I].
  - rewrite ticks_repeat. cbn [ticks]. lia.
Qed.
