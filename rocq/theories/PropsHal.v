(** Properties C51-C53, C55 and C65-C68: cnc/hal_raspberry/hal.py. Every theorem is followed
    by its assumptions and by an Example in which its hypotheses hold. *)
From Coq Require Import ZArith Bool Lia List.
From Flocq Require Import Core BinarySingleNaN.
From Verif Require Import PyBase PyNum Config Coordinates Pulses PulseSpec Dma Gpio GpioProofs DmaGpio DmaSpec DmaGpioProofs Pwm PwmSpec PwmProofs PwmRace
  Hal HalSpec MoveProofs MoveNew MoveFail CalibProofs HalProofs.
From Coq Require Import List.
Import ListNotations.
Local Open Scope Z_scope.

(* ------------------------------------------------------------------ *)
(** ** Data of the Examples *)
Definition FX : PyNum := F64 (fun x => x).
(** Microseconds as seconds. *)
Definition us (n : Z) : FX := ofdec (p:=FX) false n 6.
Definition px (n : Z) : item FX := Pulses.Pulse (Quad (Some (us n)) None None None).
Definition py (n : Z) : item FX := Pulses.Pulse (Quad None (Some (us n)) None None).
Definition dma0 : dma := {| d_addr := 0; d_mem := fun _ => 0 |}.
(** A program and the buffer it is loaded in. *)
Definition prepared (base size : Z) (d : dma) (l : list req) : dma := fst (run base size (fst (adds base size (clear d) l)) false).
(** A schedule: steps of the thread ([Some slow]) and of the engine. *)
Definition follow (h : hal_config) (base size : Z) (l : list (option bool)) (x : machine FX) : machine FX :=
  fold_left (fun x s => match s with Some slow => mstep h base size slow x | None => dstep false x end) l x.
Lemma follow_reach h base size l x0 x : reach h base size false x0 x -> reach h base size false x0 (follow h base size l x).
Proof.
  revert x. induction l as [|[s|] l IH]; intros x R; [exact R| |]; cbn [follow fold_left]; apply IH; eapply reach_step; try exact R; constructor.
Qed.
Definition thread (n : nat) : list (option bool) := repeat (Some false) n.
Definition engine_steps (n : nat) : list (option bool) := repeat None n.
Lemma follow_in_time h base size n x0 : reach_in_time h base size false x0 (follow h base size (thread n) x0).
Proof.
  assert (G: forall n x, reach_in_time h base size false x0 x -> reach_in_time h base size false x0 (follow h base size (thread n) x)).
  { clear n. induction n as [|n IH]; intros x R; [exact R|]. cbn [thread repeat follow fold_left]. apply IH. now constructor. }
  apply G. constructor.
Qed.
Lemma engine_in_time h base size n x0 : forall x, reach_in_time h base size false x0 x -> m_pc (x_move x) = MDone ->
  reach_in_time h base size false x0 (follow h base size (engine_steps n) x) /\ m_pc (x_move (follow h base size (engine_steps n) x)) = MDone.
Proof.
  induction n as [|n IH]; intros x R D; [split; assumption|]. cbn [engine_steps repeat follow fold_left]. apply IH; [|exact D].
  apply rit_engine; [exact R|]. intros _ ND. contradiction.
Qed.
Definition is_done (x : machine FX) : bool := match m_pc (x_move x) with MDone => true | _ => false end.
Lemma is_done_pc x : is_done x = true -> m_pc (x_move x) = MDone.
Proof. unfold is_done. destruct (m_pc (x_move x)); discriminate || reflexivity. Qed.
Lemma pair_ok {A} (r : A * res unit) : snd r = Ok tt -> r = (fst r, Ok tt).
Proof. destruct r. cbn. now intros ->. Qed.
Lemma prepared_loaded base size d l : snd (adds base size (clear d) l) = Ok tt ->
  snd (run base size (fst (adds base size (clear d) l)) false) = Ok tt -> loaded base size (prepared base size d l) l.
Proof. intros A R. exists d, (fst (adds base size (clear d) l)). split; [now apply pair_ok|]. unfold prepared. now apply pair_ok. Qed.
Lemma px_timed n k l tl : stamp (us n) k -> timed l tl -> timed (px n :: l) ((px n, k) :: tl).
Proof.
  intros S T. apply (timed_pulse _ (us n)); auto. exists (Quad (Some (us n)) None None None). split; [reflexivity|]. split; [exists MX; reflexivity|].
  intros [] t; cbn; congruence.
Qed.
Lemma py_timed n k l tl : stamp (us n) k -> timed l tl -> timed (py n :: l) ((py n, k) :: tl).
Proof.
  intros S T. apply (timed_pulse _ (us n)); auto. exists (Quad None (Some (us n)) None None). split; [reflexivity|]. split; [exists MY; reflexivity|].
  intros [] t; cbn; congruence.
Qed.

(* ================= C51 ================= *)
(** Exactly what the motor drivers get from the calls of DMAGPIO: the pulses of the
    generator in the same order, on the step pins of the motors that move, direction pins
    changed before the pulses that follow; every pulse at its microsecond, plus the sum
    of all earlier overlaps. *)
Theorem C51_calls {N : PyNum} h (l : list (item N)) tl : timed l tl ->
  exists rs, plan h 0 0 l = Ok rs /\ asked 0 rs = ideal h 0 (delayed h 0 0 tl).
Proof. intros T. exact (plan_asked h l tl T 0 0 0). Qed.
Print Assumptions C51_calls.
Example C51_calls_nonvacuous :
  timed [Pulses.Dir (Quad 1 (-1) 1 1); px 0; py 1; px 100] [(Pulses.Dir (Quad 1 (-1) 1 1), 0); (px 0, 0); (py 1, 1); (px 100, 100)] /\
  ideal default_hal 0 (delayed default_hal 0 0 [(Pulses.Dir (Quad 1 (-1) 1 1), 0); (px 0, 0); (py 1, 1); (px 100, 100)]) =
  [Rise 0 524288; Fall 0 1056896; Rise 0 2097152; Fall 2 2097152; Rise 2 65536; Fall 4 65536; Rise 101 2097152; Fall 103 2097152].
Proof.
  split; [|vm_compute; reflexivity]. apply timed_dir. apply px_timed; [vm_compute; reflexivity|]. apply py_timed; [vm_compute; reflexivity|].
  apply px_timed; [vm_compute; reflexivity|]. constructor.
Qed.

(** If no pulse begins before the one before it has ended, every pulse starts at its
    rounded microsecond. *)
Theorem C51_exact_partial {N : PyNum} h (l : list (item N)) tl : timed l tl -> spaced h 0 tl ->
  exists rs, plan h 0 0 l = Ok rs /\ asked 0 rs = ideal h 0 tl.
Proof. intros T S. destruct (C51_calls h l tl T) as (rs & P & A). exists rs. split; [exact P|]. now rewrite A, delayed_spaced. Qed.
Print Assumptions C51_exact_partial.
Example C51_exact_nonvacuous : spaced default_hal 0 [(Pulses.Dir (Quad 1 (-1) 1 1), 0); (px 0, 0); (py 2, 2); (px 100, 100)] /\
  timed [Pulses.Dir (Quad 1 (-1) 1 1); px 0; py 2; px 100] [(Pulses.Dir (Quad 1 (-1) 1 1), 0); (px 0, 0); (py 2, 2); (px 100, 100)].
Proof.
  split; [cbn; lia|]. apply timed_dir. apply px_timed; [vm_compute; reflexivity|]. apply py_timed; [vm_compute; reflexivity|].
  apply px_timed; [vm_compute; reflexivity|]. constructor.
Qed.

(** In general the item number [i] is late by no more than (i + 1) pulse lengths, and
    never early. *)
Theorem C51_late_partial {N : PyNum} h (tl : list (item N * Z)) i it k : 0 <= pulse_us h -> ordered 0 tl ->
  nth_error tl i = Some (Pulses.Pulse it, k) ->
  exists k', nth_error (delayed h 0 0 tl) i = Some (Pulses.Pulse it, k') /\ k <= k' <= k + pulse_us h * Z.of_nat (S i).
Proof.
  intros U O E. 
  assert (O': ordered (0 - pulse_us h) tl).
  { clear E. assert (G: forall l a b, b <= a -> ordered a l -> @ordered N b l).
    { induction l as [|[[d|q] k0] r IH]; intros a b L O1; cbn [ordered] in *; [auto|eauto|split; [lia|tauto]]. }
    eapply G; [|exact O]. lia. }
  destruct (delayed_bound h tl 0 0 0 U ltac:(lia) O' i) as [F B]. rewrite !nth_error_map, E in F. cbn [option_map fst] in F. rewrite E in B.
  destruct (nth_error (delayed h 0 0 tl) i) as [[it' k']|]; [|discriminate F]. cbn [option_map fst] in F. injection F as ->. exists k'. split; [reflexivity|]. lia.
Qed.
Print Assumptions C51_late_partial.
Example C51_late_nonvacuous : ordered 0 [(px 0, 0); (py 1, 1); (px 100, 100)] /\ delayed default_hal 0 0 [(px 0, 0); (py 1, 1); (px 100, 100)] = [(px 0, 0); (py 1, 2); (px 100, 101)].
Proof. split; [cbn; lia|reflexivity]. Qed.

(** What was wanted fails: of pulses due at 0, 1 and 100 microseconds the second one is
    queued behind the first as it should be, but the third starts at 101. *)
Theorem C51_refuted : exists (l : list (item FX)) tl rs, timed l tl /\ ordered 0 tl /\ plan default_hal 0 0 l = Ok rs /\
  asked 0 rs <> ideal default_hal 0 (queued default_hal 0 tl).
Proof.
  exists [px 0; py 1; px 100], [(px 0, 0); (py 1, 1); (px 100, 100)].
  assert (T: timed [px 0; py 1; px 100] [(px 0, 0); (py 1, 1); (px 100, 100)]).
  { apply px_timed; [vm_compute; reflexivity|]. apply py_timed; [vm_compute; reflexivity|]. apply px_timed; [vm_compute; reflexivity|]. constructor. }
  destruct (C51_calls default_hal _ _ T) as (rs & P & A). exists rs. split; [exact T|]. split; [cbn; lia|]. split; [exact P|]. rewrite A. vm_compute. discriminate.
Qed.
Print Assumptions C51_refuted.

(** All together: when move has returned (and the engine was not faster than a program
    it streamed, C53), what the engine has done and what is left to do is, for the motor
    drivers, the movement with the delays of C51_calls. *)
Theorem C51_played_partial {N : PyNum} h base size extra (g : list (item N)) tl d e x :
  buffer_ok base size -> pins_ok h -> 0 <= pulse_us h < 2 ^ 26 -> timed g tl -> gaps h 0 tl ->
  reach_in_time h base size extra (begin_move h g None d e) x -> m_pc (x_move x) = MDone ->
  exists rest, remains extra (d_mem (x_dma x)) (x_eng x) rest /\
    seen 0 (x_done x ++ rest) = ideal h 0 (delayed h 0 0 tl).
Proof.
  intros B P U T G R PC. destruct (move_program h base size extra (proj1 B) g None d e x R PC) as (rs & PL & _ & _ & rest & RM & S).
  destruct (C51_calls h g tl T) as (rs' & PL' & A). assert (rs' = rs) by congruence. subst rs'. exists rest. split; [exact RM|].
  rewrite (S B (plan_sane h g tl T P U 0 0 rs G PL)), A. reflexivity.
Qed.
Print Assumptions C51_played_partial.
Lemma default_pins : pins_ok default_hal.
Proof. constructor; try intros []; unfold pin_ok; cbn; lia. Qed.
(** The engine is stopped at first; after 25 steps of the thread move has returned, and the
    engine has executed three blocks. *)
Example C51_played_nonvacuous : let x0 := begin_move default_hal [px 0; py 1; px 100] None dma0 stopped in
  let y := follow default_hal 8192 4096 (thread 25) x0 in let x := follow default_hal 8192 4096 (engine_steps 3) y in
  reach_in_time default_hal 8192 4096 false x0 x /\ m_pc (x_move x) = MDone /\ e_active (x_eng x) = true /\
  buffer_ok 8192 4096 /\ gaps default_hal 0 [(px 0, 0); (py 1, 1); (px 100, 100)].
Proof.
  intros x0 y x. assert (D: m_pc (x_move y) = MDone) by (apply is_done_pc; vm_compute; reflexivity).
  destruct (engine_in_time default_hal 8192 4096 3 x0 y (follow_in_time _ _ _ _ _) D) as [R D']. split; [exact R|]. split; [exact D'|].
  split; [vm_compute; reflexivity|]. split; [repeat split; lia|cbn; lia].
Qed.

(* ================= C52 ================= *)
(** While the engine still executes the program of the movement before, and the new one has
    not been started, the part of the buffer from the block being executed to the end of
    the old program is what it was, whatever the order of steps of thread and engine, and
    also if the generator raises or the buffer gets full. *)
Theorem C52_untouched {N : PyNum} h base size extra d old (g : list (item N)) ex e x : 0 < base ->
  loaded base size d old -> playing base (d_mem d) e ->
  reach h base size extra (begin_move h g ex d e) x -> ~ restarted x -> e_active (x_eng x) = true ->
  e_cb (x_eng x) < base + bytes old /\ forall a, e_cb (x_eng x) <= a < base + bytes old -> d_mem (x_dma x) a = d_mem d a.
Proof. intros B. exact (move_untouched h base size extra B d old g ex e x). Qed.
Print Assumptions C52_untouched.
(** A program of eight blocks; the engine is in block 6 (of 0 to 7), the new program has
    written blocks 0 to 2. *)
Definition old8 : list req := [Delay 10; Delay 10; Delay 10; Delay 10; Delay 10; Delay 10; Delay 10; Delay 10].
Definition overlap (n : nat) : machine FX :=
  follow default_hal 8192 4096 (engine_steps 6 ++ thread n)
    (begin_move default_hal [px 0; py 1; px 100] None (prepared 8192 4096 dma0 old8) (run_dma (d_mem (prepared 8192 4096 dma0 old8)) 8192)).
Definition is_restarted (x : machine FX) : bool := m_ran (x_move x) || is_done x.
Lemma not_restarted x : is_restarted x = false -> ~ restarted x.
Proof. unfold is_restarted, is_done. intros E [R|R]; rewrite R in E; [discriminate|]. now rewrite orb_true_r in E. Qed.
Lemma run_dma_playing m base : 0 < base -> playing base m (run_dma m base).
Proof. intros B. right. cbn. split; [reflexivity|]. split; [constructor|reflexivity]. Qed.
Example C52_nonvacuous : let d := prepared 8192 4096 dma0 old8 in
  loaded 8192 4096 d old8 /\ playing 8192 (d_mem d) (run_dma (d_mem d) 8192) /\
  reach default_hal 8192 4096 false (begin_move default_hal [px 0; py 1; px 100] None d (run_dma (d_mem d) 8192)) (overlap 6) /\
  ~ restarted (overlap 6) /\ e_active (x_eng (overlap 6)) = true /\ e_cb (x_eng (overlap 6)) = 8192 + 32 * 6 /\ d_addr (x_dma (overlap 6)) = 96.
Proof.
  split; [apply prepared_loaded; vm_compute; reflexivity|]. split; [now apply run_dma_playing|].
  split; [apply follow_reach; constructor|]. split; [apply not_restarted; vm_compute; reflexivity|].
  split; [vm_compute; reflexivity|]. split; vm_compute; reflexivity.
Qed.

(** So the old movement is played to its end, unchanged. *)
Theorem C52_plays_on {N : PyNum} h base size extra d old (g : list (item N)) ex e x full : 0 < base ->
  loaded base size d old -> playing base (d_mem d) e -> remains extra (d_mem d) e full ->
  reach h base size extra (begin_move h g ex d e) x -> ~ restarted x ->
  exists rest, remains extra (d_mem d) (x_eng x) rest /\ forall t, seen t (x_done x ++ rest) = seen t full.
Proof. intros B. exact (move_old_plays h base size extra B d old g ex e x full). Qed.
Print Assumptions C52_plays_on.
Example C52_plays_on_nonvacuous : let d := prepared 8192 4096 dma0 old8 in
  exists full, remains false (d_mem d) (run_dma (d_mem d) 8192) full.
Proof.
  intros d. assert (L: loaded 8192 4096 d old8) by (apply prepared_loaded; vm_compute; reflexivity).
  destruct (loaded_chain 8192 4096 _ _ L) as (n & _ & _ & _ & C).
  pose proof (chain_plays 8192 false (d_mem d) (S n) eq_refl C n 0%nat eq_refl) as P. exists (acts 8192 false (d_mem d) 0 (S n)). exact P.
Qed.

(** The new movement meets the conditions of these theorems for the next one. *)
Theorem C52_next {N : PyNum} h base size extra (g : list (item N)) ex d e x : 0 < base ->
  reach_in_time h base size extra (begin_move h g ex d e) x -> m_pc (x_move x) = MDone ->
  exists rs, plan h 0 0 g = Ok rs /\ loaded base size (x_dma x) rs /\ playing base (d_mem (x_dma x)) (x_eng x).
Proof.
  intros B R PC. destruct (move_program h base size extra B g ex d e x R PC) as (rs & P & L & PL & _). exists rs. auto.
Qed.
Print Assumptions C52_next.
Example C52_next_nonvacuous : let x0 := begin_move default_hal [px 0; py 1; px 100] None dma0 stopped in
  exists x, reach_in_time default_hal 8192 4096 false x0 x /\ m_pc (x_move x) = MDone /\ e_active (x_eng x) = true.
Proof. intros x0. destruct C51_played_nonvacuous as (R & D & A & _). eexists. split; [exact R|]. split; [exact D|exact A]. Qed.

(* ================= C53 ================= *)
(** While a movement is streamed, the engine executes only blocks written for it, provided
    it never completes a block before the block after the next one is written. *)
Theorem C53_fresh_partial {N : PyNum} h base size extra (g : list (item N)) ex d e x : 0 < base ->
  reach_in_time h base size extra (begin_move h g ex d e) x -> m_ran (x_move x) = true -> e_active (x_eng x) = true ->
  (forall e, m_pc (x_move x) <> MFail e) ->
  base <= e_cb (x_eng x) /\ e_cb (x_eng x) + 32 <= base + d_addr (x_dma x).
Proof. intros B. exact (move_stream h base size extra B g ex d e x). Qed.
Print Assumptions C53_fresh_partial.
(** Pulses at 0 and 1 s, then at 2 s; run_stream after the second one. *)
Definition streaming (l : list (option bool)) : machine FX :=
  follow default_hal 8192 4096 (thread 12 ++ l) (begin_move default_hal [px 0; px 1000000; px 2000000] None dma0 stopped).
Example C53_fresh_nonvacuous : reach_in_time default_hal 8192 4096 false (begin_move default_hal [px 0; px 1000000; px 2000000] None dma0 stopped) (dstep false (streaming [])) /\
  m_ran (x_move (dstep false (streaming []))) = true /\ e_active (x_eng (dstep false (streaming []))) = true /\
  e_cb (x_eng (dstep false (streaming []))) = 8224.
Proof.
  split; [|vm_compute; auto]. apply rit_engine.
  - unfold streaming. rewrite app_nil_r. apply follow_in_time.
  - intros _ _ _. vm_compute. reflexivity.
Qed.

Definition old_y : list req := repeat (DmaGpio.Pulse (bit 16) 2) 6.
Definition stored (x v : Z) (l : list action) : bool := existsb (fun a => match a with Store y w => (y =? x) && (w =? v) | _ => false end) l.
Lemma stored_in x v l : stored x v l = true -> In (Store x v) l.
Proof.
  intros E. apply existsb_exists in E. destruct E as ([y w|y n|n] & I & E); try discriminate E. apply andb_prop in E. destruct E as [E1 E2].
  apply Z.eqb_eq in E1, E2. now subst.
Qed.
Definition stale_start : machine FX := begin_move default_hal [px 0; px 1000000; px 2000000] None (prepared 8192 4096 dma0 old_y) stopped.
Definition stale : machine FX := follow default_hal 8192 4096 (thread 12 ++ engine_steps 10) stale_start.
(** Only X moves now (pin 21), but the thread is slow and the engine repeats pulses of Y
    (pin 16) of the movement before, outside of what has been written. *)
Theorem C53_refuted : exists d old (g : list (item FX)) x, loaded 8192 4096 d old /\
  reach default_hal 8192 4096 false (begin_move default_hal g None d stopped) x /\
  m_ran (x_move x) = true /\ e_active (x_eng x) = true /\ 8192 + d_addr (x_dma x) <= e_cb (x_eng x) /\
  (forall it q, In it g -> it = Pulses.Pulse q -> qy q = None) /\
  In (Store 0x7E20001C (bit (qy (step_pin default_hal)))) (x_done x).
Proof.
  exists (prepared 8192 4096 dma0 old_y), old_y, [px 0; px 1000000; px 2000000], stale.
  split; [apply prepared_loaded; vm_compute; reflexivity|]. split; [apply follow_reach; constructor|].
  split; [vm_compute; reflexivity|]. split; [vm_compute; reflexivity|]. split; [vm_compute; discriminate|]. split.
  - intros it q I E. cbn [In] in I. repeat (destruct I as [I|I]; [rewrite <- I in E; injection E as <-; reflexivity|]). destruct I.
  - apply stored_in. vm_compute. reflexivity.
Qed.
Print Assumptions C53_refuted.

(** The same can happen at the end: move returns normally, but the engine had loaded the
    last block before it was marked as the last one. *)
Definition late_start : machine FX := begin_move default_hal [px 0; px 1000000] None (prepared 8192 4096 dma0 old_y) stopped.
Definition late : machine FX := follow default_hal 8192 4096 (thread 12 ++ engine_steps 6 ++ thread 2 ++ engine_steps 4) late_start.
Theorem C53_end_refuted : exists d old (g : list (item FX)) x, loaded 8192 4096 d old /\
  reach default_hal 8192 4096 false (begin_move default_hal g None d stopped) x /\
  m_pc (x_move x) = MDone /\ e_active (x_eng x) = true /\ 8192 + d_addr (x_dma x) <= e_cb (x_eng x).
Proof.
  exists (prepared 8192 4096 dma0 old_y), old_y, [px 0; px 1000000], late.
  split; [apply prepared_loaded; vm_compute; reflexivity|]. split; [apply follow_reach; constructor|].
  split; [apply is_done_pc; vm_compute; reflexivity|]. split; [vm_compute; reflexivity|]. vm_compute; discriminate.
Qed.
Print Assumptions C53_end_refuted.

(** Without instant run there is no such race: nothing is executed before it is complete. *)
Theorem C53_no_instant_partial {N : PyNum} h base size extra (g : list (item N)) ex d e x : 0 < base -> instant_run h = false ->
  reach h base size extra (begin_move h g ex d e) x -> m_pc (x_move x) = MDone ->
  exists rs, plan h 0 0 g = Ok rs /\ loaded base size (x_dma x) rs /\ playing base (d_mem (x_dma x)) (x_eng x) /\
    (e_active (x_eng x) = true -> base <= e_cb (x_eng x) /\ e_cb (x_eng x) + 32 <= base + bytes rs).
Proof.
  intros B I R PC. destruct (reach_no_instant h base size extra g ex d e x I R) as (_ & _ & RT).
  destruct (move_program h base size extra B g ex d e x RT PC) as (rs & P & L & PL & _). exists rs. split; [exact P|]. split; [exact L|]. split; [exact PL|].
  intros EA. destruct (loaded_chain base size _ _ L) as (n & BB & _ & _ & C). destruct (playing_at base _ _ _ C ltac:(lia) PL) as [E|(j & J1 & _ & J3 & _)]; [rewrite E in EA; discriminate|].
  rewrite bytes_blocks_l, BB, J3. unfold at_. lia.
Qed.
Print Assumptions C53_no_instant_partial.
Definition no_instant (h : hal_config) : hal_config :=
  {| enable_pin := enable_pin h; step_pin := step_pin h; dir_pin := dir_pin h; spindle_pin := spindle_pin h; fan_pin := fan_pin h;
     extruder_pin := extruder_pin h; bed_pin := bed_pin h; stop_pin_x := stop_pin_x h; stop_pin_y := stop_pin_y h; stop_pin_z := stop_pin_z h;
     stop_inv_x := stop_inv_x h; stop_inv_y := stop_inv_y h; stop_inv_z := stop_inv_z h; pulse_us := pulse_us h; instant_run := false;
     calibration_velocity := calibration_velocity h |}.
Example C53_no_instant_nonvacuous : let x0 := begin_move (no_instant default_hal) [px 0; px 1000000; px 2000000] None dma0 stopped in
  let x := follow (no_instant default_hal) 8192 4096 (thread 25 ++ engine_steps 5) x0 in
  reach (no_instant default_hal) 8192 4096 false x0 x /\ m_pc (x_move x) = MDone /\ e_cb (x_eng x) = 8192 + 32 * 5.
Proof.
  split; [apply follow_reach; constructor|]. split; [apply is_done_pc; vm_compute; reflexivity|vm_compute; reflexivity].
Qed.

(* ================= C66 ================= *)
(** Without instant run a movement that cannot be prepared is not begun: the engine is
    never started by it. *)
Theorem C66_not_begun_partial {N : PyNum} h base size extra (g : list (item N)) ex d e x err : instant_run h = false ->
  reach h base size extra (begin_move h g ex d e) x -> m_pc (x_move x) = MFail err -> ~ restarted x.
Proof.
  intros I R PC. destruct (reach_no_instant h base size extra g ex d e x I R) as (_ & MR & _). intros [Q|Q]; congruence.
Qed.
Print Assumptions C66_not_begun_partial.
(** A buffer of 256 bytes is too small for two pulses and a pause. *)
Definition full (h : hal_config) : machine FX := follow h 8192 256 (thread 25) (begin_move h [px 0; px 1000000; px 2000000] None dma0 stopped).
Definition failed (x : machine FX) : option exn := match m_pc (x_move x) with MFail e => Some e | _ => None end.
Lemma failed_pc x e : failed x = Some e -> m_pc (x_move x) = MFail e.
Proof. unfold failed. destruct (m_pc (x_move x)); try discriminate. now intros [= ->]. Qed.
Example C66_not_begun_nonvacuous : reach (no_instant default_hal) 8192 256 false (begin_move (no_instant default_hal) [px 0; px 1000000; px 2000000] None dma0 stopped) (full (no_instant default_hal)) /\
  m_pc (x_move (full (no_instant default_hal))) = MFail MemoryError.
Proof. split; [apply follow_reach; constructor|apply failed_pc; vm_compute; reflexivity]. Qed.

(** If the calls fit into the buffer and the generator does not raise, preparing a movement
    does not fail, with or without instant run, for every schedule. *)
Theorem C66_fits_partial {N : PyNum} h base size extra (g : list (item N)) tl d e x : buffer_ok base size -> pins_ok h -> 0 <= pulse_us h < 2 ^ 26 ->
  timed g tl -> gaps h 0 tl -> g <> [] -> 128 * Z.of_nat (length g) <= size ->
  reach h base size extra (begin_move h g None d e) x -> forall err, m_pc (x_move x) <> MFail err.
Proof.
  intros B P U T G NE L R. destruct (C51_calls h g tl T) as (rs & PL & _). eapply move_fits; try eassumption.
  - exact (plan_sane h g tl T P U 0 0 rs G PL).
  - intros ->. destruct T as [|q l tl T|q t k l tl PA S T]; [congruence| |]; cbn [plan plan_item] in PL.
    + cbn [rbind] in PL. destruct (plan h 0 0 l); discriminate.
    + rewrite (min_pulse_at _ _ PA) in PL. unfold stamp in S. rewrite S in PL. cbn [rbind] in PL. destruct (plan h k (k + pulse_us h) l); cbn [rbind] in PL; [|discriminate].
      injection PL as PL. apply app_eq_nil in PL. destruct PL as [PL _]. apply app_eq_nil in PL. destruct PL as [_ PL]. discriminate.
  - pose proof (plan_length h g tl T 0 0 rs PL). lia.
Qed.
Print Assumptions C66_fits_partial.
(** The default buffer (30 MB) takes 245760 items. *)
Example C66_fits_nonvacuous : buffer_ok 8192 31457280 /\ 128 * 245760 <= 31457280 /\ 0 <= pulse_us default_hal < 2 ^ 26 /\ pins_ok default_hal /\
  timed [px 0; px 1000000; px 2000000] [(px 0, 0); (px 1000000, 1000000); (px 2000000, 2000000)] /\
  gaps default_hal 0 [(px 0, 0); (px 1000000, 1000000); (px 2000000, 2000000)].
Proof.
  split; [repeat split; lia|]. split; [lia|]. split; [cbn; lia|]. split; [exact default_pins|]. split; [|cbn; lia].
  repeat (apply px_timed; [vm_compute; reflexivity|]). constructor.
Qed.

(** With instant run, as shipped, the first part of a movement is executed although the rest
    does not fit; the stream is not closed, so the engine goes on into whatever the buffer
    contains behind it. *)
Theorem C66_refuted : exists (g : list (item FX)) x, 
  reach default_hal 8192 256 false (begin_move default_hal g None dma0 stopped) x /\ m_pc (x_move x) = MFail MemoryError /\
  e_active (x_eng x) = true /\ e_cb (x_eng x) = 8192 /\ d_mem (x_dma x) (8192 + d_addr (x_dma x) - 12) = 8192 + d_addr (x_dma x).
Proof.
  exists [px 0; px 1000000; px 2000000], (full default_hal). split; [apply follow_reach; constructor|]. split; [apply failed_pc; vm_compute; reflexivity|].
  split; [vm_compute; reflexivity|]. split; vm_compute; reflexivity.
Qed.
Print Assumptions C66_refuted.

(* ================= C55 ================= *)
(** True is returned only if both phases took place, and for every requested axis in the
    first phase (away from the switch) a round with three readings of "released", and in
    the second one a round with three readings of "at zero". *)
Theorem C55_true h base size N cfg x y z looks d ev1 ev2 : separate h ->
  calibrate h base size N cfg x y z looks d = (Some (Ok true), ev1, ev2) ->
  exists e2, ev2 = Some e2 /\
  forall m, (m = MX /\ x = true) \/ (m = MY /\ y = true) \/ (m = MZ /\ z = true) ->
    (exists k, In (CLook k) ev1 /\ all_read (negb (zero_level h m)) (readings k m)) /\
    (exists k, In (CLook k) e2 /\ all_read (zero_level h m) (readings k m)).
Proof.
  intros S. unfold calibrate. destruct (cal_phase h base size N cfg x y z true looks d) as [[[e1 d1] v1] r1] eqn:E1.
  destruct v1 as [[[|]|err]|]; [|intros [= ]|intros [= ]|intros [= ]].
  destruct (cal_phase h base size N cfg x y z false r1 d1) as [[[e2 d2] v2] r2] eqn:E2. intros [= -> <- <-]. exists e2. split; [reflexivity|].
  intros m A. assert (A': asked_axes x y z m = true) by (destruct A as [[-> ->]|[[-> ->]|[-> ->]]]; reflexivity).
  split; [exact (phase_true h S base size N cfg x y z true looks d e1 d1 r1 E1 m A')|exact (phase_true h S base size N cfg x y z false r1 d1 e2 d2 r2 E2 m A')].
Qed.
Print Assumptions C55_true.
(** Readings (3 times the same) of the switches of X and Z. *)
Definition lk (vx vz : Z) (act : bool) : look := {| k_go := true; k_x := (vx, vx, vx); k_y := (0, 1, 0); k_z := (vz, vz, vz); k_active := act |}.
Definition outcome (r : option (res bool) * list cal_event * option (list cal_event)) : option (res bool) := fst (fst r).
(** X (zero level 1) and Z (zero level 0) are requested; X leaves its switch one round
    before Z, and returns one round later. *)
Definition looks_ok : list look := [lk 1 0 false; lk 0 0 true; lk 0 1 true; lk 0 1 false; lk 0 0 true; lk 1 0 true].
Definition cal_xz (l : list look) : option (res bool) * list cal_event * option (list cal_event) :=
  calibrate default_hal 8192 31457280 FX default_config true false true l dma0.
Lemma default_separate : separate default_hal.
Proof. split; [apply default_pins|]. intros [] []; cbn; congruence || (intros; exfalso; lia). Qed.
Example C55_true_nonvacuous : outcome (cal_xz looks_ok) = Some (Ok true) /\ outcome (cal_xz [lk 1 0 false; lk 0 0 true]) = None.
Proof. split; vm_compute; reflexivity. Qed.

(** From the event after such a round on the engine does not drive the axis, and no program
    for it is prepared, to the end of the phase; [st] (what the engine did before) is
    arbitrary. [inv] tells which phase it is. *)
Theorem C55_stops h base size N cfg x y z inv looks d ev d' v r : separate h ->
  cal_phase h base size N cfg x y z inv looks d = (ev, d', v, r) ->
  forall st l1 k l2 m, ev = l1 ++ CLook k :: l2 -> m <> ME ->
  all_read (if inv then negb (zero_level h m) else zero_level h m) (readings k m) ->
  (forall q l, In (CProgram q l) l2 -> Z.testbit q (qat m (step_pin h)) = false) /\
  (forall pre post, l2 = pre ++ post -> pre <> [] \/ post = [] ->
     Z.testbit (driven st (l1 ++ CLook k :: pre)) (qat m (step_pin h)) = false).
Proof. intros S. exact (phase_stops h S base size N cfg x y z inv looks d ev d' v r). Qed.
Print Assumptions C55_stops.
(** After the first two rounds (X has left its switch) only Z is driven; before, both. *)
Definition events1 (l : list look) : list cal_event := fst (fst (fst (cal_phase default_hal 8192 31457280 FX default_config true false true true l dma0))).
Example C55_stops_nonvacuous : driven (0, 0) (firstn 7 (events1 looks_ok)) = bit 21 + bit 12 /\
  driven (0, 0) (events1 [lk 1 0 false; lk 0 0 false]) = bit 12 /\ driven (0, 0) (events1 looks_ok) = 0.
Proof. repeat split; vm_compute; reflexivity. Qed.

(** The programs pulse only step pins of requested axes, and change no other pin. *)
Theorem C55_only h base size N cfg x y z inv looks d ev d' v r : separate h ->
  cal_phase h base size N cfg x y z inv looks d = (ev, d', v, r) ->
  forall q l, In (CProgram q l) ev ->
    (forall i, 0 <= i -> Z.testbit q i = true ->
       (i = qx (step_pin h) /\ x = true) \/ (i = qy (step_pin h) /\ y = true) \/ (i = qz (step_pin h) /\ z = true)) /\
    (forall msk us, In (DmaGpio.Pulse msk us) l -> msk = q) /\ (forall a b, ~ In (SetClear a b) l).
Proof.
  intros S E q l I. destruct (phase_programs h S base size N cfg x y z inv looks d ev d' v r E q l I) as (A & B & C). split; [|auto].
  intros i Hi T. destruct (A i Hi T) as (m & M & ->). destruct m; cbn [asked_axes qat] in *; auto. discriminate.
Qed.
Print Assumptions C55_only.
Example C55_only_nonvacuous : existsb (fun e => match e with CProgram q l => (q =? bit 21 + bit 12) && (Z.of_nat (length l) =? 1998) | _ => false end) (events1 looks_ok) = true.
Proof. vm_compute. reflexivity. Qed.

(* ================= C68 ================= *)
(** After a successful calibration the engine drives no motor, whatever it did before. *)
Theorem C68_success_partial h base size N cfg x y z looks d ev1 e2 : separate h ->
  calibrate h base size N cfg x y z looks d = (Some (Ok true), ev1, Some e2) -> forall st, driven st (ev1 ++ e2) = 0.
Proof.
  intros S. unfold calibrate. destruct (cal_phase h base size N cfg x y z true looks d) as [[[e1 d1] v1] r1] eqn:E1.
  destruct v1 as [[[|]|err]|]; [|intros [= ]|intros [= ]|intros [= ]].
  destruct (cal_phase h base size N cfg x y z false r1 d1) as [[[e2' d2] v2] r2] eqn:E2. intros [= -> <- <-] st.
  unfold driven. rewrite fold_left_app. exact (phase_last h S base size N cfg x y z false r1 d1 e2' d2 r2 E2 _).
Qed.
Print Assumptions C68_success_partial.
Example C68_success_nonvacuous : match cal_xz looks_ok with (Some (Ok true), _, Some _) => true | _ => false end = true.
Proof. vm_compute. reflexivity. Qed.

(** After one that failed because of the time limit it goes on. *)
Definition looks_late : list look := [lk 1 0 false; {| k_go := false; k_x := (0, 0, 0); k_y := (0, 0, 0); k_z := (0, 0, 0); k_active := true |}].
Definition events_of_cal (r : option (res bool) * list cal_event * option (list cal_event)) : list cal_event := snd (fst r).
Theorem C68_refuted : exists looks, outcome (cal_xz looks) = Some (Ok false) /\ driven (0, 0) (events_of_cal (cal_xz looks)) = bit 21 + bit 12.
Proof. exists looks_late. split; vm_compute; reflexivity. Qed.
Print Assumptions C68_refuted.

(* ================= C67 ================= *)
(** After init: function and pull resistor of every pin in use, level of the pins of
    spindle, fan, heaters and enable; the other pins are left alone. *)
Theorem C67_init h lev g : pins_ok h -> NoDup (used_pins h) ->
  let g' := hal_init h lev g in
  (forall m, function_of g' (qat m (step_pin h)) = 1 /\ function_of g' (qat m (dir_pin h)) = 1) /\
  (forall p, In p [spindle_pin h; fan_pin h; extruder_pin h; bed_pin h; enable_pin h] -> function_of g' p = 1 /\ g_latch g' p = false) /\
  (forall p, In p [stop_pin_x h; stop_pin_y h; stop_pin_z h] -> function_of g' p = 0 /\ g_pull g' p = 2) /\
  (forall p, 0 <= p < 54 -> ~ In p (used_pins h) -> function_of g' p = function_of g p /\ g_latch g' p = g_latch g p).
Proof.
  intros P ND g'. assert (O: forall p m, In (p, m) (init_pins h) -> _) by (intros p m I; exact (hal_init_spec h lev g p m P ND I)).
  split; [|split; [|split]].
  - intros m. split; apply (O _ ModeOutput); destruct m; unfold init_pins; cbn [In qat]; tauto.
  - intros p I. assert (I': In (p, ModeOutput) (init_pins h)).
    { unfold init_pins. cbn [In] in *. destruct I as [<-|[<-|[<-|[<-|[<-|[]]]]]]; tauto. }
    destruct (O _ _ I') as (A & _ & B). split; [exact A|exact (B I)].
  - intros p I. assert (I': In (p, ModeInputPullUp) (init_pins h)).
    { unfold init_pins. cbn [In] in *. destruct I as [<-|[<-|[<-|[]]]]; tauto. }
    destruct (O _ _ I') as (A & B & _). split; [exact A|apply B; discriminate].
  - intros p Hp NI. exact (hal_init_frame h lev g p P ND Hp NI).
Qed.
Print Assumptions C67_init.
Lemma default_distinct : NoDup (used_pins default_hal).
Proof. unfold used_pins. cbn. repeat (constructor; [cbn; lia|]). constructor. Qed.
Example C67_nonvacuous : pins_ok default_hal /\ NoDup (used_pins default_hal).
Proof. split; [exact default_pins|exact default_distinct]. Qed.

(* ================= C65 ================= *)
(** If no pin is controlled by the PWM, deinit switches everything off and stops the watchdog. *)
Theorem C65_off_partial h base s : pins_ok h -> NoDup (used_pins h) -> keys_of (w_dict s) [] ->
  exists s', deinit h base [] s = (s', true, Ok tt) /\
    (forall p, In p [spindle_pin h; fan_pin h; extruder_pin h; bed_pin h] -> g_latch (w_gpio s') p = false) /\
    g_latch (w_gpio s') (enable_pin h) = true.
Proof. exact (deinit_clean h base s). Qed.
Print Assumptions C65_off_partial.
Example C65_off_nonvacuous : keys_of (w_dict (pwm0 8192 (fun _ => 0) (gpio_set blank 27))) [] /\ g_latch (w_gpio (pwm0 8192 (fun _ => 0) (gpio_set blank 27))) (fan_pin default_hal) = true.
Proof. split; [|vm_compute; reflexivity]. split; [constructor|]. cbn. intros p. split; [intros []|]. intros [_ H]. now apply H. Qed.

(** Otherwise (with Python 3) it always raises RuntimeError after the first pin, leaves
    the other pins as they are and does not stop the watchdog. *)
Theorem C65_raises h base p keys s : pins_ok h -> keys_of (w_dict s) (p :: keys) ->
  exists s', deinit h base (p :: keys) s = (s', false, Raise RuntimeError) /\
    (forall q, q <> p -> w_dict s' q = w_dict s q) /\
    (forall q, 0 <= q < 54 -> q <> p -> q <> enable_pin h -> g_latch (w_gpio s') q = g_latch (w_gpio s) q).
Proof. exact (deinit_raises h base p keys s). Qed.
Print Assumptions C65_raises.
(** Spindle at 50%, fan on: the fan stays on. *)
Definition spindle_fan : shared := finish 8192 16 (pwm0 8192 (fun _ => 0) (gpio_set blank 27)) (AddBranch 4 128).
Lemma spindle_fan_keys : keys_of (w_dict spindle_fan) [4].
Proof.
  split; [repeat constructor; intros []|].
  assert (E: forall p, w_dict spindle_fan p = if p =? 4 then Some (128 * 32 + 24) else None).
  { intros p. unfold spindle_fan. do 7 (rewrite finish_S by discriminate; cbn [tstep fst snd Z.eqb Pos.eqb]). match goal with |- context [e_active ?e] => destruct (e_active e) end; [rewrite finish_done|rewrite finish_S by discriminate; cbn [tstep fst snd]; rewrite finish_done]; reflexivity. }
  intros p. rewrite E. cbn [In]. destruct (Z.eqb_spec p 4) as [->|D]; split; intros H; try (destruct H; congruence).
  - split; [lia|discriminate].
  - now left.
  - exfalso. destruct H as [H|[]]. congruence.
Qed.
Example C65_raises_nonvacuous : pins_ok default_hal /\ keys_of (w_dict spindle_fan) [4].
Proof. split; [exact default_pins|exact spindle_fan_keys]. Qed.
Theorem C65_refuted : exists keys s, keys_of (w_dict s) keys /\
  snd (deinit default_hal 8192 keys s) = Raise RuntimeError /\ g_latch (w_gpio (fst (fst (deinit default_hal 8192 keys s)))) (fan_pin default_hal) = true.
Proof.
  exists [4], spindle_fan. split; [exact spindle_fan_keys|split; vm_compute; reflexivity].
Qed.
Print Assumptions C65_refuted.
