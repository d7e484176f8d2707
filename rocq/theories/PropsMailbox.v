(** Properties C76 and C77: the memory of the DMA programs, from the first request to the
    firmware to the end of the process. Every theorem is followed by its assumptions and
    by an Example of its hypotheses. *)
From Coq Require Import String ZArith Bool Reals Lia List.
From Flocq Require Import Core BinarySingleNaN.
From Verif Require Import PyBase PyNum PyFloatFacts Config Coordinates Pulses GCode GMachine ExampleBase MainLoop MainSpec PropsMain.
From Verif Require Import Dma DmaGpio Gpio GpioProofs Hal HalSpec HalProofs Pwm PwmSpec PwmRace PropsHal Watchdog WatchdogProofs PropsDma Mailbox MailboxSpec MailboxProofs ExitModel ExitProofs.
From Coq Require Import List.
Import ListNotations.
Local Open Scope Z_scope.

(* ---------- an operating system for the Examples ---------- *)
Definition fresh (l : list Z) : Z := 1 + fold_right Z.max 0 l.
Lemma fresh_new l : ~ In (fresh l) l.
Proof.
  assert (G: forall l x, In x l -> x <= fold_right Z.max 0 l). { clear l. induction l as [|y l IH]; intros x []; cbn; [subst; lia|specialize (IH x H); lia]. }
  intros I. specialize (G l _ I). unfold fresh in G. lia.
Qed.
Lemma fresh_pos l : 0 < fresh l.
Proof. unfold fresh. assert (0 <= fold_right Z.max 0 l) by (induction l; cbn; lia). lia. Qed.
Lemma ok_inj (A : Type) (a b : A) : Ok a = Ok b -> a = b.
Proof. congruence. Qed.
(** [lock] answers requests to lock a block, [map] requests to map memory. *)
Definition example_os (lock : Z -> Z) (map : history -> res Z) : os := fun l c =>
  match c with
  | Open _ => Ok (fresh (opened l))
  | Mmap _ _ _ => map l
  | Ioctl _ d =>
    match understood d with
    | Some (Allocate _ _) => Ok (if fresh (held l) <? 16 then fresh (held l) else 0)
    | Some (Lock h) => Ok (lock h mod 2 ^ 32)
    | _ => Ok 0
    end
  | _ => Ok 0
  end.
Lemma example_honest lock map : (forall l v, map l = Ok v -> ~ In v (mapped l)) -> honest (example_os lock map).
Proof.
  intros M l c v H. destruct c; cbn [example_os] in H; trivial.
  - injection H as <-. intros _. apply fresh_new.
  - destruct (understood data) as [[]|]; injection H as <-; (split; [|trivial]); try lia.
    + pose proof (fresh_pos (held l)). destruct (Z.ltb_spec (fresh (held l)) 16); lia.
    + destruct (Z.ltb_spec (fresh (held l)) 16); [intros _; apply fresh_new|intros Q; now contradiction Q].
    + apply Z.mod_pos_bound. lia.
  - now apply M.
Qed.
Lemma example_calm lock map : calm (example_os lock map).
Proof. intros l c e G. destruct c; cbn [gives_back example_os] in *; try contradiction; try discriminate. destruct (understood data) as [[]|]; try contradiction; discriminate. Qed.
Definition map_ok (l : history) : res Z := Ok (fresh (mapped l)).
Lemma map_ok_new l v : map_ok l = Ok v -> ~ In v (mapped l).
Proof. intros [= <-]. apply fresh_new. Qed.
(** Blocks of 32 MB from bus address 0xC0000000 on. *)
Definition good_os : os := example_os (fun h => 0xC0000000 + h * 0x2000000) map_ok.
Definition pi3 : Z := 0x3F000000.

(* ================= C76 ================= *)
(** The firmware reads in a message what the program put into it. *)
Theorem C76_messages request args : request <> 0 -> 4 * Z.of_nat (length args) < 2 ^ 31 -> parse (message request args) = Some (request, args).
Proof. exact (parse_message request args). Qed.
Print Assumptions C76_messages.
Example C76_messages_ex : parse (message 0x3000c [8192; 4096; 12]) = Some (0x3000c, [8192; 4096; 12]) /\ length (message 0x3000c [8192; 4096; 12]) = 9%nat.
Proof. split; reflexivity. Qed.

(** A buffer: at least the requested number of bytes in whole pages is allocated and
    locked, and exactly this block is mapped. The physical address has the two upper bits
    of the bus address removed. Assumed: blocks are aligned as requested. *)
Theorem C76_block sys size s s' bus n : honest sys ->
  (forall l fd d h v, sys l (Ioctl fd d) = Ok v -> understood d = Some (Lock h) -> v mod 4096 = 0) ->
  cma_init sys size s = (s', Ok (bus, n)) ->
  size <= n < size + 4096 /\ exists fd d1 h d2 fd2 m v,
    p_calls s' = (Close fd2, Ok v) :: (Mmap fd2 n (bus mod 2 ^ 30), Ok m) :: (Open DevMem, Ok fd2) ::
      (Ioctl fd d2, Ok bus) :: (Ioctl fd d1, Ok h) :: (Open DevVcio, Ok fd) :: p_calls s /\
    understood d1 = Some (Allocate n 4096) /\ h <> 0 /\ understood d2 = Some (Lock h) /\ bus <> 0.
Proof. exact (block_calls sys size s s' bus n). Qed.
Print Assumptions C76_block.
Example C76_block_ex : honest good_os /\
  (forall l fd d h v, good_os l (Ioctl fd d) = Ok v -> understood d = Some (Lock h) -> v mod 4096 = 0) /\
  snd (cma_init good_os (256 * 32 + 1) proc0) = Ok (0xC2000000, 12288).
Proof.
  split; [apply example_honest; exact map_ok_new|]. split; [|vm_compute; reflexivity].
  intros l fd d h v H U. unfold good_os, example_os in H. rewrite U in H. apply ok_inj in H. subst v. change (2 ^ 32) with (4096 * 1048576). rewrite Z.rem_mul_r by lia.
  replace (0xC0000000 + h * 0x2000000) with ((786432 + h * 8192) * 4096) by lia. rewrite Z.mod_mul, Z.div_mul by lia. rewrite Z.add_0_l, Z.mul_comm. now apply Z.mod_mul.
Qed.

(** If all objects could be created, at the end of the process everything is given back,
    and every call made sense: nothing is given back twice or while it is locked, or used
    before it exists. For every list of objects; hal.py creates [hal_objects]. Missing:
    objects that could not be created (next theorems). *)
Theorem C76_given_back_partial sys objs s : honest sys -> calm sys -> create_all sys objs proc0 = (s, Ok tt) ->
  nothing_held (exit_process sys s) /\ all_sensible (exit_process sys s).
Proof. exact (fun Hh Hc => all_given_back sys Hh Hc objs s). Qed.
Print Assumptions C76_given_back_partial.
Example C76_given_back_ex : honest good_os /\ calm good_os /\
  let r := create_all good_os (hal_objects pi3) proc0 in
  snd r = Ok tt /\ held (p_calls (fst r)) = [3; 2; 1] /\ length (mapped (p_calls (fst r))) = 10%nat /\ length (exit_process good_os (fst r)) = 58%nat.
Proof. split; [apply example_honest; exact map_ok_new|]. split; [apply example_calm|]. vm_compute. repeat split. Qed.

(** If an object could not be created, at most one block and two descriptors stay, no
    mapping, and every call made sense. *)
Theorem C76_failed_partial sys objs s e : honest sys -> calm sys -> create_all sys objs proc0 = (s, Raise e) ->
  (length (held (exit_process sys s)) <= 1)%nat /\ (length (opened (exit_process sys s)) <= 2)%nat /\
  mapped (exit_process sys s) = [] /\ all_sensible (exit_process sys s).
Proof. exact (fun Hh Hc => rest_given_back sys Hh Hc objs s e). Qed.
Print Assumptions C76_failed_partial.
(** The second block can not be locked. *)
Definition no_lock : os := example_os (fun h => if h =? 2 then 0 else 0xC0000000 + h * 0x2000000) map_ok.
Example C76_failed_ex : honest no_lock /\ calm no_lock /\ snd (create_all no_lock (hal_objects pi3) proc0) = Raise IOErr.
Proof. split; [apply example_honest; exact map_ok_new|]. split; [apply example_calm|]. vm_compute. reflexivity. Qed.

(** A block that can not be locked is never released, against the comment in
    rpgpio_private.py:164: there is no __del__ and self.free is not registered yet. The
    same if /dev/mem can not be mapped; then it even stays locked. *)
Definition no_map : os := example_os (fun h => 0xC0000000 + h * 0x2000000) (fun l => match opened l with _ :: _ :: _ => Raise IOErr | _ => map_ok l end).
Theorem C76_refuted : exists sys, honest sys /\ calm sys /\
  exists s, create_all sys (hal_objects pi3) proc0 = (s, Raise IOErr) /\ held (exit_process sys s) = [2].
Proof.
  exists no_lock. split; [apply example_honest; exact map_ok_new|]. split; [apply example_calm|].
  exists (fst (create_all no_lock (hal_objects pi3) proc0)). split; vm_compute; reflexivity.
Qed.
Print Assumptions C76_refuted.
Theorem C76_map_refuted : exists sys, honest sys /\ calm sys /\
  exists s, create_all sys (hal_objects pi3) proc0 = (s, Raise IOErr) /\ locked (exit_process sys s) = [1].
Proof.
  exists no_map. split; [apply example_honest; intros l v H|].
  { destruct (opened l) as [|? [|? ?]]; [now apply map_ok_new|now apply map_ok_new|discriminate]. }
  split; [apply example_calm|]. exists (fst (create_all no_map (hal_objects pi3) proc0)). split; vm_compute; reflexivity.
Qed.
Print Assumptions C76_map_refuted.

(* ================= C77 ================= *)
(** After deinit without an exception no DMA channel is active, so the memory that is given
    back afterwards is not in use: for every history of calls of the PWM that do not
    overlap, when no pin is left with the PWM. *)
Theorem C77_stopped_partial {N : PyNum} h base (hist : list (PwmSpec.call N)) c : pins_ok h -> NoDup (used_pins h) ->
  runs base hist (ch_pwm c) Done -> keys_of (w_dict (ch_pwm c)) [] -> e_active (ch_steps c) = false ->
  exists c', deinit_channels h base [] c = (c', Ok tt) /\ any_active c' = false.
Proof. exact (deinit_stops h base hist c). Qed.
Print Assumptions C77_stopped_partial.
(** At the start of the program, with the watchdog running. *)
Example C77_stopped_ex (N : PyNum) : let c := {| ch_steps := stopped; ch_pwm := pwm0 8192 (fun _ => 0) blank; ch_watchdog := run_dma (fun _ => 0) 65536 |} in
  pins_ok default_hal /\ NoDup (used_pins default_hal) /\ @runs N 8192 [] (ch_pwm c) Done /\ keys_of (w_dict (ch_pwm c)) [] /\ e_active (ch_steps c) = false /\ any_active c = true.
Proof.
  cbv zeta. split; [exact default_pins|]. split; [exact default_distinct|]. cbn [ch_pwm ch_steps]. split; [constructor; reflexivity|].
  split; [|split; reflexivity]. split; [constructor|]. cbn. intros p. split; [intros []|]. intros [_ H]. now apply H.
Qed.

(** Otherwise: a program that ends with an exception has not called deinit (the session:
    M3, then end of input; the spindle runs), and the memory of the watchdog, which was fed
    in time until then, is given back while its channel runs. Whoever gets the block may
    write to it; if it is filled with zeros no pin is ever switched off, however long one
    waits. *)
Definition is_deinit {N : PyNum} (e : event N) : bool := match e with EDeinit => true | _ => false end.
Lemma no_deinit {N : PyNum} (l : list (event N)) : existsb is_deinit l = false -> ~ In EDeinit l.
Proof. intros H I. rewrite <- not_true_iff_false in H. apply H. apply existsb_exists. exists EDeinit. now split. Qed.
Theorem C77_refuted (acos : f64 -> f64) base m g l : 0 < base /\ base + 65536 < 2 ^ 32 -> fed 0 l ->
  (exists (a : start) (s' : session (F64 acos)) (p : f64), main default_config hw_ok a (session0 default_config) = (s', Some (Raise EOFError)) /\
     ~ In (@EDeinit (F64 acos)) (s_log s') /\ last_spindle (s_log s') = Some p /\ B2R p = 100%R) /\
  e_active (x_eng (after_ops base (wd_memory base m) g l)) = true /\
  exists m', (forall a, ~ base <= a < base + 65536 -> m' a = wd_memory base m a) /\
    forall n p, function_of (x_gpio (fold_left (op_step base m') (repeat Tick n) (after_ops base (wd_memory base m) g l))) p = function_of g p.
Proof.
  intros B F. split; [|split; [exact (proj1 (watchdog_quiet base B m g l F))|exact (watchdog_without_memory base B m g l F)]].
  set (a := NoFile (lines ["M3S10000"]%string ++ [Err EOFError])). set (r := main default_config (N:=F64 acos) hw_ok a (session0 default_config)).
  exists a, (fst r), (match last_spindle (s_log (fst r)) with Some p => p | None => f_ofZ 0 end).
  split; [apply pair_eq; vm_compute; reflexivity|]. split; [apply no_deinit; vm_compute; reflexivity|]. split.
  - apply some_default. vm_compute. reflexivity.
  - apply (shows_is _ 100); [vm_compute; reflexivity|lia].
Qed.
Print Assumptions C77_refuted.
(** Fan on (pin 27), fed after 2000 blocks. *)
Example C77_refuted_ex : let g := gpio_init (fun _ => 0) blank 27 ModeOutput in
  fed 0 (repeat Tick 2000 ++ Feed :: repeat Tick 1000) /\ function_of g 27 = 1.
Proof.
  split; [|vm_compute; reflexivity]. apply fed_repeat; [lia|]. cbn [fed]. rewrite <- (app_nil_r (repeat Tick 1000)). apply fed_repeat; [lia|exact I].
Qed.

(** And deinit itself does not stop the watchdog if a pin is left with the PWM (C65). *)
Theorem C77_deinit_refuted h base p keys c : pins_ok h -> keys_of (w_dict (ch_pwm c)) (p :: keys) ->
  exists c', deinit_channels h base (p :: keys) c = (c', Raise RuntimeError) /\ ch_watchdog c' = ch_watchdog c.
Proof.
  intros P K. destruct (deinit_raises h base p keys _ P K) as (s' & E & _). unfold deinit_channels. rewrite E. eexists. split; reflexivity.
Qed.
Print Assumptions C77_deinit_refuted.
Example C77_deinit_ex : pins_ok default_hal /\ keys_of (w_dict (ch_pwm {| ch_steps := stopped; ch_pwm := spindle_fan; ch_watchdog := run_dma (fun _ => 0) 65536 |})) [4].
Proof. split; [exact default_pins|exact spindle_fan_keys]. Qed.
