(** Proofs about ExitModel.v, and about a watchdog whose memory has another owner. *)
From Coq Require Import ZArith Bool Lia List.
From Verif Require Import PyBase PyNum Dma DmaGpio DmaSpec DmaGpioProofs Gpio GpioProofs Hal HalSpec HalProofs Pwm PwmSpec Watchdog WatchdogProofs ExitModel.
Import ListNotations.
Local Open Scope Z_scope.

(** ** The PWM runs only while it has pins *)
Definition pc_pin (t : pc) : option Z :=
  match t with
  | Done => None
  | RemTest p _ | RemRead1 p _ _ | RemWrite1 p _ _ _ | RemRead2 p _ | RemWrite2 p _ _ | RemDel p _ | RemLow p _ | RemEmpty p _ | RemActive p _ | RemStop p _
  | AddBranch p _ | AddLow p | AddHigh p | AddHighDict p | AddRead1 p _ | AddWrite1 p _ _ | AddRead2 p _ | AddWrite2 p _ _ | AddDict p _ | AddActive p _ | AddRun p _ => Some p
  end.
Definition some_pin (d : Z -> option Z) : Prop := exists p, 0 <= p < 32 /\ d p <> None.
Definition clearing (t : pc) : Prop := match t with RemLow _ _ | RemEmpty _ _ | RemActive _ _ | RemStop _ _ => True | _ => False end.
Record pwm_inv (s : shared) (t : pc) : Prop := {
  pi_pin : forall p, pc_pin t = Some p -> 0 <= p < 32;
  pi_add : match t with AddActive p _ | AddRun p _ => w_dict s p <> None | _ => True end;
  pi_idle : e_active (w_eng s) = true -> some_pin (w_dict s) \/ clearing t
}.
Lemma no_pins_false d : no_pins d = false -> some_pin d.
Proof.
  unfold no_pins, some_pin. intros H. assert (G: ~ Forall (fun p => d p = None) all_pins).
  { intros F. rewrite <- not_true_iff_false in H. apply H. apply forallb_forall. intros p I. rewrite Forall_forall in F. now rewrite (F p I). }
  apply neg_Forall_Exists_neg in G; [|intros p; destruct (d p); [now right|now left]]. apply Exists_exists in G. destruct G as (p & I & D).
  exists p. split; [now apply all_pins_in|exact D].
Qed.
Lemma tstep_inv base s t : pwm_inv s t -> pwm_inv (fst (tstep base s t)) (snd (tstep base s t)).
Proof.
  intros [A B C]. destruct t; cbn [tstep fst snd pc_pin] in *; try (specialize (A _ eq_refl)).
  all: try solve [constructor; cbn [pc_pin w_dict w_eng set_mem set_gpio clearing]; [intros ? [= <-]; assumption|trivial|intros E; destruct (C E) as [G|[]]; now left]].
  all: try solve [constructor; cbn [pc_pin w_dict w_eng set_mem set_gpio clearing]; [intros ? [= <-]; assumption|trivial|intros E; right; exact Logic.I]].
  - destruct (w_dict s pin) eqn:E.
    + constructor; cbn [pc_pin clearing]; [intros ? [= <-]; assumption|trivial|]. intros _. left. exists pin. split; [exact A|congruence].
    + constructor; cbn [pc_pin clearing]; [intros ? [= <-]; assumption|trivial|]. intros _. right. exact Logic.I.
  - destruct (no_pins (w_dict s)) eqn:E.
    + constructor; cbn [pc_pin clearing]; [intros ? [= <-]; assumption|trivial|right; exact Logic.I].
    + apply no_pins_false in E. destruct k; constructor; cbn [removed pc_pin]; try (intros ? [= <-]; assumption); try discriminate; trivial; now left.
  - destruct (e_active (w_eng s)) eqn:E.
    + constructor; cbn [pc_pin clearing]; [intros ? [= <-]; assumption|trivial|right; exact Logic.I].
    + destruct k; constructor; cbn [removed pc_pin]; try (intros ? [= <-]; assumption); try discriminate; trivial; congruence.
  - destruct k; constructor; cbn [removed pc_pin w_eng set_eng stop_dma stopped e_active]; try (intros ? [= <-]; assumption); try discriminate; trivial.
  - destruct (b =? 0); [|destruct (b =? 256)]; constructor; cbn [pc_pin]; try (intros ? [= <-]; assumption); trivial; intros E; destruct (C E) as [G|[]]; now left.
  - constructor; cbn [pc_pin w_eng set_dict w_dict]; [discriminate|trivial|]. intros _. left. exists pin. split; [exact A|]. rewrite Z.eqb_refl. discriminate.
  - constructor; cbn [pc_pin w_eng set_dict w_dict]; [intros ? [= <-]; assumption|rewrite Z.eqb_refl; discriminate|]. intros _. left. exists pin. split; [exact A|]. rewrite Z.eqb_refl. discriminate.
  - destruct (e_active (w_eng s)) eqn:E; constructor; cbn [pc_pin]; try (intros ? [= <-]; assumption); try discriminate; trivial; left; exists pin; now split.
  - constructor; cbn [pc_pin w_eng set_eng w_dict]; [discriminate|trivial|]. intros _. left. exists pin. now split.
Qed.
Lemma runs_inv {N : PyNum} base (h : list (call N)) s t : runs base h s t -> pwm_inv s t.
Proof.
  induction 1 as [m g H|h s c t _ IH B|h s t _ IH|h s t _ IH].
  - constructor; cbn; try discriminate; trivial.
  - destruct IH as [A1 A2 A3]. destruct B; (constructor; cbn [pc_pin]; [intros ? [= <-]; assumption|trivial|]); intros E; (destruct (A3 E) as [G|[]]; now left).
  - now apply tstep_inv.
  - destruct IH as [A1 A2 A3]. constructor; cbn [estep w_dict w_eng set_gpio set_eng]; try assumption. intros E. apply A3. unfold advance in E. destruct (e_active (w_eng s)) eqn:Q; [reflexivity|congruence].
Qed.
Lemma idle_without_pins {N : PyNum} base (h : list (call N)) s : runs base h s Done -> keys_of (w_dict s) [] -> e_active (w_eng s) = false.
Proof.
  intros R [_ K]. destruct (runs_inv base h s Done R) as [_ _ I]. destruct (e_active (w_eng s)); [|reflexivity]. destruct (I eq_refl) as [(p & P)|[]].
  exfalso. now apply (proj2 (K p)) in P.
Qed.

(** After deinit without an exception no channel is active. *)
Lemma deinit_stops {N : PyNum} h base (hist : list (call N)) c : pins_ok h -> NoDup (used_pins h) ->
  runs base hist (ch_pwm c) Done -> keys_of (w_dict (ch_pwm c)) [] -> e_active (ch_steps c) = false ->
  exists c', deinit_channels h base [] c = (c', Ok tt) /\ any_active c' = false.
Proof.
  intros P ND R K S. pose proof (idle_without_pins base hist _ R K) as I. unfold deinit_channels, deinit, remove_all. cbn [remove_loop set_gpio w_dict].
  rewrite (entries_keys _ _ K). cbn [length Nat.eqb negb set_gpio w_dict]. rewrite (entries_keys _ _ K). cbn [length Nat.eqb]. eexists. split; [reflexivity|].
  unfold any_active. cbn [ch_steps ch_pwm ch_watchdog set_gpio w_eng stop_dma stopped e_active]. now rewrite S, I.
Qed.

(** ** The watchdog on memory of another owner *)
Section Owner.
Variable base : Z.
Hypothesis base_ok : 0 < base /\ base + 65536 < 2 ^ 32.
(** The new owner fills the block with zeros. *)
Definition wiped (m : mem) : mem := fun a => if (base <=? a) && (a <? base + 65536) then 0 else m a.
Definition inside (a : Z) : Prop := base <= a /\ a + 32 <= base + 65536.
Definition adrift (e : engine) : Prop := e_active e = true -> inside (e_cb e) /\ (e_next e = 0 \/ inside (e_next e)).
Lemma wiped_block m cb : inside cb -> transfer false (wiped m) cb = [] /\ next_cb (wiped m) cb = 0.
Proof.
  intros [I1 I2]. assert (G: forall k, 0 <= k < 32 -> wiped m (cb + k) = 0). { intros k Hk. unfold wiped. destruct (Z.leb_spec base (cb + k)); [|lia]. destruct (Z.ltb_spec (cb + k) (base + 65536)); [|lia]. reflexivity. }
  assert (G0 := G 0 ltac:(lia)). rewrite Z.add_0_r in G0. unfold transfer, next_cb. rewrite G0, !G by lia. split; reflexivity.
Qed.
Lemma wiped_tick m x : adrift (x_eng x) -> adrift (x_eng (op_step base (wiped m) x Tick)) /\ x_gpio (op_step base (wiped m) x Tick) = x_gpio x.
Proof.
  intros A. cbn [op_step x_eng x_gpio]. unfold advance, performed. destruct (e_active (x_eng x)) eqn:E; [|split; [intros Q; congruence|reflexivity]].
  destruct (A E) as [I1 I2]. split; [|rewrite (proj1 (wiped_block m _ I1)); reflexivity].
  destruct (Z.eqb_spec (e_next (x_eng x)) 0) as [Z0|Z0]; [intros Q; discriminate Q|]. destruct I2 as [I2|I2]; [contradiction|].
  intros _. cbn [e_cb e_next]. split; [exact I2|]. left. apply wiped_block. exact I2.
Qed.
Lemma wiped_ticks m n : forall x, adrift (x_eng x) -> x_gpio (fold_left (op_step base (wiped m)) (repeat Tick n) x) = x_gpio x.
Proof.
  induction n as [|n IH]; intros x A; [reflexivity|]. cbn [repeat fold_left]. destruct (wiped_tick m x A) as [A1 A2]. rewrite (IH _ A1). exact A2.
Qed.
Lemma watchdog_adrift m g l : adrift (x_eng (after_ops base (wd_memory base m) g l)).
Proof.
  destruct (reached base base_ok m l {| x_eng := run_dma (wd_memory base m) base; x_gpio := g |}) as [(i & a & S)|D].
  - left. exists 0, false. exact (sits_start base base_ok m).
  - destruct S as (S1 & S2 & S3 & S4). intros _. unfold after_ops. rewrite S3, S4. unfold inside, at_, natural. split; [lia|]. destruct a; [right; lia|]. destruct (Z.eqb_spec i 2047); [now left|right]. unfold at_. lia.
  - destruct D as [D _]. intros Q. unfold after_ops in Q. congruence.
Qed.
Lemma watchdog_without_memory m g l : fed 0 l -> exists m', (forall a, ~ base <= a < base + 65536 -> m' a = wd_memory base m a) /\
  forall n p, function_of (x_gpio (fold_left (op_step base m') (repeat Tick n) (after_ops base (wd_memory base m) g l))) p = function_of g p.
Proof.
  intros F. exists (wiped (wd_memory base m)). split.
  - intros a H. unfold wiped. destruct (Z.leb_spec base a); [|reflexivity]. destruct (Z.ltb_spec a (base + 65536)); [lia|reflexivity].
  - intros n p. rewrite wiped_ticks by apply watchdog_adrift. now apply watchdog_quiet.
Qed.
End Owner.
