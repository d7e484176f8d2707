(** Proofs about hal.init and hal.deinit. *)
From Coq Require Import ZArith Bool Lia List FinFun.
From Verif Require Import PyBase PyNum Config Coordinates Pulses PulseSpec Dma Gpio GpioProofs Pwm PwmProofs Hal HalSpec.
From Coq Require Import List.
Import ListNotations.
Local Open Scope Z_scope.

(** ** init *)
Lemma inits_spec lev l : forall g p, Forall (fun q => 0 <= fst q < 54) l -> NoDup (map fst l) -> 0 <= p < 54 ->
  let g' := fold_left (fun g '(p, m) => gpio_init lev g p m) l g in
  g_latch g' p = g_latch g p /\
  (~ In p (map fst l) -> function_of g' p = function_of g p /\ g_pull g' p = g_pull g p) /\
  (forall m, In (p, m) l -> function_of g' p = match m with ModeOutput => 1 | _ => 0 end /\
     (m <> ModeOutput -> g_pull g' p = pull_code m)).
Proof.
  induction l as [|[q m] l IH]; intros g p F ND Hp; cbn [fold_left].
  - split; [reflexivity|]. split; [auto|intros m []].
  - inversion F as [|? ? F1 F2]; subst. cbn [map fst] in ND, F1. inversion ND as [|? ? N1 N2]; subst.
    destruct (IH (gpio_init lev g q m) p F2 N2 Hp) as (A & B & C). destruct (init_spec lev g q m p F1 Hp) as (I1 & I2 & I3).
    split; [now rewrite A|]. split.
    + intros NI. cbn [map fst In] in NI. destruct (B ltac:(tauto)) as [B1 B2]. rewrite B1, B2, I1, I3. destruct (Z.eqb_spec p q); [subst; tauto|auto].
    + intros m' [E|I].
      * injection E as -> ->. destruct (B N1) as [B1 B2]. rewrite B1, B2, I1, I3, Z.eqb_refl. split; [reflexivity|]. intros NM. destruct m'; congruence || reflexivity.
      * apply C, I.
Qed.
Lemma clears_spec l : forall g p, Forall (fun q => 0 <= q < 54) l -> 0 <= p < 54 ->
  let g' := fold_left gpio_clear l g in
  function_of g' p = function_of g p /\ g_pull g' p = g_pull g p /\ (In p l -> g_latch g' p = false) /\ (~ In p l -> g_latch g' p = g_latch g p).
Proof.
  induction l as [|q l IH]; intros g p F Hp; cbn [fold_left]; [split; [|split; [|split]]; auto; intros []|].
  inversion F as [|? ? F1 F2]; subst. destruct (IH (gpio_clear g q) p F2 Hp) as (A & B & C & D). destruct (clear_frame g q F1) as (E1 & E2 & _).
  cbv zeta. rewrite A, B. split; [unfold function_of; now rewrite E1|]. split; [now rewrite E2|]. pose proof (latch_clear g q p F1 Hp) as LC. split.
  - intros I. destruct (in_dec Z.eq_dec p l) as [J|J]; [auto|]. destruct I as [->|I]; [|tauto]. rewrite D, LC, Z.eqb_refl by assumption. reflexivity.
  - intros NI. cbn [In] in NI. rewrite D, LC by tauto. destruct (Z.eqb_spec p q); [subst; tauto|reflexivity].
Qed.

Lemma init_pins_ok h : pins_ok h -> Forall (fun q => 0 <= fst q < 54) (init_pins h).
Proof.
  intros P. pose proof (ok_step h P) as S. pose proof (ok_dir h P) as D. 
  pose proof (S MX); pose proof (S MY); pose proof (S MZ); pose proof (S ME); pose proof (D MX); pose proof (D MY); pose proof (D MZ); pose proof (D ME).
  destruct P. unfold pin_ok in *. cbn [qat] in *. unfold init_pins. repeat constructor; cbn [fst]; lia.
Qed.

Lemma hal_init_spec h lev g p m : pins_ok h -> NoDup (used_pins h) -> In (p, m) (init_pins h) ->
  let g' := hal_init h lev g in
  function_of g' p = match m with ModeOutput => 1 | _ => 0 end /\ (m <> ModeOutput -> g_pull g' p = pull_code m) /\
  (In p [spindle_pin h; fan_pin h; extruder_pin h; bed_pin h; enable_pin h] -> g_latch g' p = false).
Proof.
  intros P ND I. pose proof (init_pins_ok h P) as F. assert (Hp: 0 <= p < 54) by (rewrite Forall_forall in F; apply (F (p, m) I)).
  destruct (inits_spec lev _ g p F ND Hp) as (_ & _ & C). destruct (C m I) as [C1 C2].
  assert (F': Forall (fun q => 0 <= q < 54) [spindle_pin h; fan_pin h; extruder_pin h; bed_pin h; enable_pin h]).
  { destruct P. unfold pin_ok in *. repeat constructor; lia. }
  unfold hal_init. destruct (clears_spec _ (fold_left (fun g '(p, m) => gpio_init lev g p m) (init_pins h) g) p F' Hp) as (A & B & L & _).
  cbv zeta. rewrite A, B. auto.
Qed.
Lemma hal_init_frame h lev g p : pins_ok h -> NoDup (used_pins h) -> 0 <= p < 54 -> ~ In p (used_pins h) ->
  function_of (hal_init h lev g) p = function_of g p /\ g_latch (hal_init h lev g) p = g_latch g p.
Proof.
  intros P ND Hp NI. pose proof (init_pins_ok h P) as F. destruct (inits_spec lev _ g p F ND Hp) as (L & B & _). destruct (B NI) as [B1 _].
  assert (F': Forall (fun q => 0 <= q < 54) [spindle_pin h; fan_pin h; extruder_pin h; bed_pin h; enable_pin h]).
  { destruct P. unfold pin_ok in *. repeat constructor; lia. }
  unfold hal_init. destruct (clears_spec _ (fold_left (fun g '(p, m) => gpio_init lev g p m) (init_pins h) g) p F' Hp) as (A & _ & _ & L').
  rewrite A, L', B1, L; auto. intros J. apply NI. unfold used_pins, init_pins. cbn [map fst In] in *. tauto.
Qed.

(** ** deinit *)
(** [keys] enumerates the dictionary. *)
Definition keys_of (d : Z -> option Z) (keys : list Z) : Prop :=
  NoDup keys /\ forall p, In p keys <-> (0 <= p < 32 /\ d p <> None).
(** The dictionary has no key beyond 0..31 (remove_pin and add_pin assert it). *)
Definition dict_ok (d : Z -> option Z) : Prop := forall p, d p <> None -> 0 <= p < 32.

Lemma all_pins_in p : In p all_pins <-> 0 <= p < 32.
Proof.
  unfold all_pins. rewrite in_map_iff. split.
  - intros (n & <- & I). apply in_seq in I. lia.
  - intros H. exists (Z.to_nat p). split; [lia|]. apply in_seq. lia.
Qed.
Lemma all_pins_nodup : NoDup all_pins.
Proof. unfold all_pins. apply Injective_map_NoDup; [intros a b H; lia|apply seq_NoDup]. Qed.

Lemma entries_keys d keys : keys_of d keys -> entries d = length keys.
Proof.
  intros [ND K]. unfold entries. apply Nat.le_antisymm; apply NoDup_incl_length; auto using NoDup_filter, all_pins_nodup; intros p I.
  - apply filter_In in I. destruct I as [I1 I2]. apply all_pins_in in I1. apply K. split; [exact I1|]. intros E. now rewrite E in I2.
  - apply K in I. apply filter_In. split; [apply all_pins_in; tauto|]. destruct I as [_ I]. now destruct (d p).
Qed.

Lemma finish_S base n s t : t <> Done -> finish base (S n) s t = finish base n (fst (tstep base s t)) (snd (tstep base s t)).
Proof. intros H. destruct t; try congruence; cbn [finish]; now destruct (tstep base s _). Qed.
Lemma finish_done base n s : finish base n s Done = s.
Proof. destruct n; reflexivity. Qed.

Lemma finish_remove base p s : exists e,
  finish base 16 s (RemTest p None) =
  match w_dict s p with
  | None => set_eng s e
  | Some a => set_eng (set_gpio (set_dict (set_mem s (mset (mset (w_mem s) (base + a) (Z.land (w_mem s (base + a)) (Z.lnot (Z.shiftl 1 p)))) (base + 24)
       (Z.land (mset (w_mem s) (base + a) (Z.land (w_mem s (base + a)) (Z.lnot (Z.shiftl 1 p))) (base + 24)) (Z.lnot (Z.shiftl 1 p))))) p None) 
       (reg_write (w_gpio s) 40 (Z.shiftl 1 p))) e
  end.
Proof.
  assert (TAIL: forall n s, exists e, finish base (S (S (S n))) s (RemEmpty p None) = set_eng s e).
  { intros n s0. rewrite finish_S by discriminate. cbn [tstep fst snd]. destruct (no_pins (w_dict s0)).
    - rewrite finish_S by discriminate. cbn [tstep fst snd]. destruct (e_active (w_eng s0)).
      + rewrite finish_S by discriminate. cbn [tstep fst snd removed]. rewrite finish_done. eexists. reflexivity.
      + cbn [removed]. rewrite finish_done. exists (w_eng s0). now destruct s0.
    - cbn [removed]. rewrite finish_done. exists (w_eng s0). now destruct s0. }
  rewrite finish_S by discriminate. cbn [tstep fst snd]. destruct (w_dict s p) as [a|] eqn:E; [|apply TAIL].
  do 6 (rewrite finish_S by discriminate; cbn [tstep fst snd]). apply TAIL.
Qed.

Lemma removed_dict base p s q : w_dict (finish base 16 s (RemTest p None)) q = if q =? p then None else w_dict s q.
Proof.
  destruct (finish_remove base p s) as [e ->]. destruct (w_dict s p) as [a|] eqn:E; cbn; [reflexivity|]. destruct (Z.eqb_spec q p); [now subst|reflexivity].
Qed.
Lemma removed_latch base p s q : 0 <= p < 32 -> 0 <= q < 54 -> q <> p -> g_latch (w_gpio (finish base 16 s (RemTest p None))) q = g_latch (w_gpio s) q.
Proof.
  intros Hp Hq D. destruct (finish_remove base p s) as [e ->]. destruct (w_dict s p) as [a|] eqn:E; cbn [set_eng set_gpio set_dict set_mem w_gpio]; [|reflexivity].
  pose proof (latch_clear (w_gpio s) p q ltac:(lia) Hq) as L. unfold gpio_clear in L. rewrite Z.div_small, Z.mod_small in L by lia. change (4 * 0 + 40) with 40 in L.
  rewrite L. destruct (Z.eqb_spec q p); [congruence|reflexivity].
Qed.

(** Python 3: the loop of remove_all fails as soon as a pin was removed. *)
Lemma remove_all_raises base p keys s : keys_of (w_dict s) (p :: keys) ->
  remove_all base (p :: keys) s = (finish base 16 s (RemTest p None), Raise RuntimeError).
Proof.
  intros K. unfold remove_all. rewrite (entries_keys _ _ K). cbn [remove_loop]. rewrite (entries_keys _ _ K), Nat.eqb_refl. cbn [negb].
  assert (K': keys_of (w_dict (finish base 16 s (RemTest p None))) keys).
  { destruct K as [ND K]. inversion ND as [|? ? N1 N2]; subst. split; [exact N2|]. intros q. rewrite removed_dict. specialize (K q). cbn [In] in K.
    destruct (Z.eqb_spec q p) as [->|D]; [tauto|]. rewrite <- K. intuition congruence. }
  destruct keys as [|q keys]; cbn [remove_loop]; rewrite (entries_keys _ _ K'); cbn [length];
    [|rewrite (proj2 (Nat.eqb_neq (S (length keys)) (S (S (length keys)))) (n_Sn _))]; reflexivity.
Qed.

Lemma deinit_raises h base p keys s : pins_ok h -> keys_of (w_dict s) (p :: keys) ->
  exists s', deinit h base (p :: keys) s = (s', false, Raise RuntimeError) /\
    (forall q, q <> p -> w_dict s' q = w_dict s q) /\
    (forall q, 0 <= q < 54 -> q <> p -> q <> enable_pin h -> g_latch (w_gpio s') q = g_latch (w_gpio s) q).
Proof.
  intros P K. unfold deinit. set (s0 := set_gpio s (disable_steppers h (w_gpio s))).
  rewrite (remove_all_raises base p keys s0 K). exists (finish base 16 s0 (RemTest p None)). split; [reflexivity|]. split.
  - intros q D. rewrite removed_dict. destruct (Z.eqb_spec q p); [congruence|reflexivity].
  - intros q Hq D DE. destruct K as [_ K]. pose proof (proj1 (K p) (or_introl eq_refl)) as [Hp _].
    rewrite removed_latch by assumption. unfold s0, disable_steppers. cbn [set_gpio w_gpio]. destruct P. unfold pin_ok in *. rewrite latch_set by lia.
    destruct (Z.eqb_spec q (enable_pin h)); [congruence|reflexivity].
Qed.

Lemma deinit_clean h base s : pins_ok h -> NoDup (used_pins h) -> keys_of (w_dict s) [] ->
  exists s', deinit h base [] s = (s', true, Ok tt) /\
    (forall p, In p [spindle_pin h; fan_pin h; extruder_pin h; bed_pin h] -> g_latch (w_gpio s') p = false) /\
    g_latch (w_gpio s') (enable_pin h) = true.
Proof.
  intros P ND K. unfold deinit, remove_all. cbn [remove_loop set_gpio w_dict]. rewrite (entries_keys _ _ K). cbn [length Nat.eqb negb].
  cbn [set_gpio w_dict w_gpio]. rewrite (entries_keys _ _ K). cbn [length Nat.eqb]. eexists. split; [reflexivity|]. cbn [set_gpio w_gpio].
  pose proof P as P'. destruct P'. unfold pin_ok in *.
  assert (F': Forall (fun q => 0 <= q < 54) [spindle_pin h; fan_pin h; extruder_pin h; bed_pin h]) by (repeat constructor; lia).
  split.
  - intros p I. assert (Hp: 0 <= p < 54) by (rewrite Forall_forall in F'; apply F', I).
    apply (clears_spec _ (disable_steppers h (w_gpio s)) p F' Hp). exact I.
  - assert (NE: ~ In (enable_pin h) [spindle_pin h; fan_pin h; extruder_pin h; bed_pin h]).
    { unfold used_pins, init_pins in ND. cbn [map fst] in ND. do 11 (apply NoDup_cons_iff in ND; destruct ND as [_ ND]).
      intros I. cbn [In] in I.
      apply NoDup_cons_iff in ND; destruct ND as [N1 ND]. apply NoDup_cons_iff in ND; destruct ND as [N2 ND].
      apply NoDup_cons_iff in ND; destruct ND as [N3 ND]. apply NoDup_cons_iff in ND; destruct ND as [N4 ND]. cbn [In] in *. intuition congruence. }
    destruct (clears_spec _ (disable_steppers h (w_gpio s)) (enable_pin h) F' ltac:(lia)) as (_ & _ & _ & L). rewrite (L NE).
    unfold disable_steppers. rewrite latch_set, Z.eqb_refl by lia. reflexivity.
Qed.
