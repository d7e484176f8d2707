(** Proofs about cnc/sensors/ads111x.py (C83). *)
From Coq Require Import ZArith Bool Lia List.
From Verif Require Import PyBase PyNum AdsChip Ads.
Import ListNotations.
Local Open Scope Z_scope.

Section Proofs.
Variable sense : nat -> Z -> Z -> Z.
Variable ready : nat -> bool.
Variable bus : nat -> transfer.
Notation i2c_write := (i2c_write sense ready bus).
Notation i2c_read := (i2c_read sense ready bus).
Notation poll := (poll sense ready bus).
Notation measure := (measure sense ready bus).
Notation chip_at := (chip_at sense ready).

Lemma channel_cases ch : (ch <? 0) || (3 <? ch) = false -> ch = 0 \/ ch = 1 \/ ch = 2 \/ ch = 3.
Proof. intros H. apply orb_false_iff in H. destruct H as [H1 H2]. apply Z.ltb_ge in H1, H2. lia. Qed.
Definition good_ch (ch : Z) : Prop := ch = 0 \/ ch = 1 \/ ch = 2 \/ ch = 3.
Lemma word_fields ch : good_ch ch -> mux_bits (config_word ch) = 4 + ch /\ pga_bits (config_word ch) = 1 /\ single_bit (config_word ch) = true /\
  config_word ch / 256 * 256 + config_word ch mod 256 = config_word ch /\ os_bit (config_word ch) = true.
Proof. intros [->|[->|[->| ->]]]; vm_compute; repeat split. Qed.

(** The state of the chip during a measurement begun at [t0]. *)
Definition going (t0 : nat) (ch : Z) (w : world) : Prop :=
  w_lock w = true /\ (t0 < w_time w)%nat /\ c_config (w_chip w) = config_word ch /\
  (c_busy (w_chip w) = true \/
   c_busy (w_chip w) = false /\ exists t, (t0 < t < w_time w)%nat /\ ready t = true /\ c_conversion (w_chip w) = sense t (4 + ch) 1).
Definition ended (t0 : nat) (ch : Z) (w : world) : Prop := going t0 ch w /\ c_busy (w_chip w) = false.

Lemma going_next t0 ch w : good_ch ch -> going t0 ch w -> going t0 ch (next w (chip_at w)) /\ (c_busy (w_chip w) = false -> c_busy (chip_at w) = false) /\ c_pointer (chip_at w) = c_pointer (w_chip w).
Proof.
  intros G (L & T & C & B). destruct (word_fields ch G) as (F1 & F2 & F3 & _). unfold Ads.chip_at, chip_done.
  destruct (ready (w_time w)) eqn:R; [destruct (c_busy (w_chip w)) eqn:Bu|].
  - split; [|split; [discriminate|reflexivity]]. unfold going, next. cbn [w_lock w_time w_chip c_config c_busy c_conversion]. rewrite C, F1, F2, F3.
    repeat (split; [first [exact L|lia|reflexivity]|]). right. split; [reflexivity|]. exists (w_time w). split; [lia|]. split; [exact R|reflexivity].
  - split; [|split; [auto|reflexivity]]. unfold going, next. cbn [w_lock w_time w_chip]. repeat (split; [first [exact L|lia|exact C]|]).
    right. split; [exact Bu|]. destruct B as [B|[_ (t & Ht & B)]]; [congruence|]. exists t. split; [lia|exact B].
  - split; [|split; [auto|reflexivity]]. unfold going, next. cbn [w_lock w_time w_chip]. repeat (split; [first [exact L|lia|exact C]|]).
    destruct B as [B|[B0 (t & Ht & B)]]; [left; exact B|right]. split; [exact B0|]. exists t. split; [lia|exact B].
Qed.
Lemma going_write t0 ch w p w' : good_ch ch -> going t0 ch w -> i2c_write [p] w = (w', Ok tt) ->
  going t0 ch w' /\ c_pointer (w_chip w') = p /\ (c_busy (w_chip w) = false -> c_busy (w_chip w') = false).
Proof.
  intros G H E. destruct (going_next t0 ch w G H) as (N & B & _). unfold Ads.i2c_write in E.
  assert (E': w' = next w (chip_write [p] (chip_at w))) by (destruct (bus (w_time w)); congruence). subst w'. clear E.
  split; [exact N|]. split; [reflexivity|exact B].
Qed.
Lemma going_read t0 ch w d w' : good_ch ch -> going t0 ch w -> i2c_read w = (w', Ok d) ->
  going t0 ch w' /\ c_pointer (w_chip w') = c_pointer (w_chip w) /\ (c_busy (w_chip w) = false -> c_busy (w_chip w') = false) /\ (d = [] \/ d = chip_read (w_chip w')).
Proof.
  intros G H E. destruct (going_next t0 ch w G H) as (N & B & P). unfold Ads.i2c_read in E.
  destruct (bus (w_time w)); [|congruence|]; injection E as <- <-; (split; [exact N|]; split; [exact P|]; split; [exact B|]); tauto.
Qed.
Lemma read_back c : unpack_H (chip_read c) = Ok (read_word c).
Proof. unfold unpack_H, chip_read. f_equal. rewrite Z.mul_comm. symmetry. apply Z_div_mod_eq_full. Qed.
Lemma start_bit ch c : good_ch ch -> c_config c = config_word ch -> c_pointer c = 1 -> (Z.land (read_word c) 0x8000 =? 0) = c_busy c.
Proof.
  intros G C P. unfold read_word. rewrite C, P. destruct (c_busy c); destruct G as [->|[->|[->| ->]]]; reflexivity.
Qed.
Lemma poll_ended t0 ch fuel : good_ch ch -> forall w w' , going t0 ch w -> poll fuel w = Ends w' (Ok tt) -> ended t0 ch w'.
Proof.
  intros G. induction fuel as [|fuel IH]; intros w w' H E; [discriminate E|]. cbn [Ads.poll] in E.
  destruct (i2c_write [1] w) as [w1 [[]|e]] eqn:E1; [|discriminate E]. destruct (going_write _ _ _ _ _ G H E1) as (H1 & P1 & _).
  destruct (i2c_read w1) as [w2 [d|e]] eqn:E2; [|discriminate E]. destruct (going_read _ _ _ _ _ G H1 E2) as (H2 & P2 & _ & [->| ->]); [discriminate E|].
  rewrite read_back in E. rewrite (start_bit ch) in E; [|exact G|exact (proj1 (proj2 (proj2 H2)))|congruence].
  destruct (c_busy (w_chip w2)) eqn:B; [exact (IH _ _ H2 E)|]. injection E as <-. split; assumption.
Qed.

Definition idle (w : world) : Prop := c_busy (w_chip w) = false.
Definition in_range : Prop := forall t mux pga, -32768 <= sense t mux pga <= 32767.
(** A measurement that returns: the result of a conversion of this channel, with the range
    of 4.096 V, that ended during the call; the chip rests again and the lock is free. *)
Lemma measure_result fuel ch w w' v : idle w -> measure fuel ch w = Ends w' (Ok v) -> in_range ->
  good_ch ch /\ w_lock w = false /\ idle w' /\ w_lock w' = false /\
  exists t, (w_time w < t < w_time w')%nat /\ ready t = true /\ f_div (f_ofZ (sense t (4 + ch) 1)) (f_ofZ 8000) = Ok v.
Proof.
  intros I E R. unfold Ads.measure in E. destruct ((ch <? 0) || (3 <? ch)) eqn:Ec; [discriminate E|]. apply channel_cases in Ec. assert (G: good_ch ch) by exact Ec. clear Ec. split; [exact G|].
  destruct (w_lock w) eqn:L; [discriminate E|]. split; [reflexivity|].
  destruct (i2c_write (config_bytes ch) (set_lock w true)) as [w1 [[]|e]] eqn:E1; [|discriminate E].
  assert (H1: going (w_time w) ch w1).
  { unfold Ads.i2c_write in E1. destruct (word_fields ch G) as (_ & _ & F3 & F4 & F5).
    assert (E': w1 = next (set_lock w true) (chip_write (config_bytes ch) (chip_at (set_lock w true)))) by (destruct (bus (w_time (set_lock w true))); congruence).
    subst w1. clear E1. unfold going, next, config_bytes, set_lock, chip_write. cbn [w_lock w_time w_chip]. rewrite F4, F5, Z.eqb_refl. cbn [c_config c_busy].
    split; [reflexivity|]. split; [lia|]. split; [reflexivity|]. left. now rewrite orb_true_r. }
  destruct (poll fuel w1) as [|w2 [[]|e]] eqn:E2; [discriminate E| |discriminate E]. destruct (poll_ended _ _ _ G _ _ H1 E2) as [H2 B2].
  destruct (i2c_write [0] w2) as [w3 [[]|e]] eqn:E3; [|discriminate E]. destruct (going_write _ _ _ _ _ G H2 E3) as (H3 & P3 & B3).
  destruct (i2c_read w3) as [w4 [d|e]] eqn:E4; [|discriminate E]. destruct (going_read _ _ _ _ _ G H3 E4) as (H4 & P4 & B4 & [->| ->]); [discriminate E|].
  unfold unpack_h in E. rewrite read_back in E. assert (B := B4 (B3 B2)).
  destruct H4 as (_ & T & _ & [K|[_ (t & Ht & Rt & K)]]); [congruence|].
  assert (W: read_word (w_chip w4) = sense t (4 + ch) 1 mod 65536) by (unfold read_word; rewrite P4, P3, K; reflexivity).
  assert (Q: (if read_word (w_chip w4) <? 32768 then read_word (w_chip w4) else read_word (w_chip w4) - 65536) = sense t (4 + ch) 1).
  { rewrite W. specialize (R t (4 + ch) 1). set (n := sense t (4 + ch) 1) in *. destruct (Z_lt_le_dec n 0) as [Hn|Hn].
    - replace (n mod 65536) with (n + 65536) by (apply Zmod_unique with (-1); lia). destruct (Z.ltb_spec (n + 65536) 32768); lia.
    - rewrite Z.mod_small by lia. destruct (Z.ltb_spec n 32768); lia. }
  rewrite Q in E. pose proof (f_equal (fun r => match r with Ends _ x => x | Waits => Raise IOErr end) E) as Ev. pose proof (f_equal (fun r => match r with Ends x _ => x | Waits => w end) E) as Ew. clear E. cbv beta iota in Ev, Ew. subst w'.
  split; [exact B|]. split; [reflexivity|]. exists t. split; [exact Ht|]. split; [exact Rt|]. exact Ev.
Qed.

Lemma chip_at_idle w : idle w -> c_busy (chip_at w) = false.
Proof. unfold idle, Ads.chip_at, chip_done. intros I. rewrite I. now destruct (ready (w_time w)). Qed.
Lemma poll_lock fuel : forall w w' r, w_lock w = true -> poll fuel w = Ends w' r -> w_lock w' = true.
Proof.
  induction fuel as [|fuel IH]; intros w w' r L E; [discriminate E|]. cbn [Ads.poll] in E.
  unfold Ads.i2c_write, Ads.i2c_read in E. repeat match type of E with context [bus ?t] => destruct (bus t) end; cbn [unpack_H] in E;
    repeat match type of E with context [match unpack_H ?d with _ => _ end] => destruct (unpack_H d) end;
    repeat match type of E with context [if ?b then _ else _] => destruct b end;
    first [discriminate E|injection E as <- _; exact L|refine (IH _ _ _ _ E); exact L].
Qed.
(** A call that raises leaves the lock taken, or has not used the chip. *)
Lemma measure_failed fuel ch w w' e : idle w -> measure fuel ch w = Ends w' (Raise e) -> w_lock w' = true \/ idle w'.
Proof.
  intros I E. unfold Ads.measure in E. destruct ((ch <? 0) || (3 <? ch)); [injection E as <- _; right; exact I|].
  destruct (w_lock w) eqn:L; [discriminate E|]. left. 
  unfold Ads.i2c_write at 1 in E.
  assert (X: forall w1, w_lock w1 = true -> match poll fuel w1 with
      | Waits => Waits
      | Ends w (Raise e) => Ends w (Raise e)
      | Ends w (Ok _) =>
        match i2c_write [0] w with
        | (w, Raise e) => Ends w (Raise e)
        | (w, Ok _) =>
          match i2c_read w with
          | (w, Raise e) => Ends w (Raise e)
          | (w, Ok d) =>
            match unpack_h d with
            | Raise e => Ends w (Raise e)
            | Ok v => Ends (set_lock w false) (f_div (f_ofZ v) (f_ofZ 8000))
            end
          end
        end
      end = Ends w' (Raise e) -> w_lock w' = true).
  { clear E. intros w1 L1 E. destruct (poll fuel w1) as [|w2 [[]|x]] eqn:P; [discriminate E| |injection E as <- _; exact (poll_lock _ _ _ _ L1 P)].
    assert (L2 := poll_lock _ _ _ _ L1 P). unfold Ads.i2c_write, Ads.i2c_read in E.
    assert (D: forall n, exists v, f_div (f_ofZ n) (f_ofZ 8000) = Ok v) by (intros n; unfold f_div; change (is_zero_f (f_ofZ 8000)) with false; eexists; reflexivity).
    destruct (bus (w_time w2)); [| |]; try (injection E as <- _; exact L2);
      (match type of E with context [bus ?t] => destruct (bus t) end; try (injection E as <- _; exact L2));
      try (match type of E with context [match unpack_h ?d with _ => _ end] => destruct (unpack_h d) as [n|x] end);
      try (injection E as <- _; exact L2); destruct (D n) as [v Ev]; rewrite Ev in E; discriminate E. }
  destruct (bus (w_time (set_lock w true))); [|injection E as <- _; reflexivity|]; (eapply X; [|exact E]; reflexivity).
Qed.

(** Without short reads only OSError is raised. *)
Lemma poll_raises fuel : (forall t, bus t <> Short) -> forall w w' e, poll fuel w = Ends w' (Raise e) -> e = IOErr.
Proof.
  intros Hs. induction fuel as [|fuel IH]; intros w w' e E; [discriminate E|]. cbn [Ads.poll] in E. unfold Ads.i2c_write, Ads.i2c_read in E.
  destruct (bus (w_time w)) eqn:B1; [|congruence|destruct (Hs _ B1)].
  match type of E with context [bus ?t] => destruct (bus t) eqn:B2 end; [|congruence|destruct (Hs _ B2)].
  rewrite read_back in E. match type of E with context [if ?b then _ else _] => destruct b end; [exact (IH _ _ _ E)|discriminate E].
Qed.
Lemma measure_raises fuel ch w w' e : (forall t, bus t <> Short) -> (ch <? 0) || (3 <? ch) = false -> measure fuel ch w = Ends w' (Raise e) -> e = IOErr.
Proof.
  intros Hs Hc E. unfold Ads.measure in E. rewrite Hc in E. destruct (w_lock w); [discriminate E|]. unfold Ads.i2c_write at 1 in E.
  destruct (bus (w_time (set_lock w true))) eqn:B1; [|congruence|destruct (Hs _ B1)].
  match type of E with context [poll fuel ?x] => destruct (poll fuel x) as [|w2 [[]|x']] eqn:P end; [discriminate E| |injection E as _ <-; exact (poll_raises _ Hs _ _ _ P)].
  unfold Ads.i2c_write, Ads.i2c_read in E. destruct (bus (w_time w2)) eqn:B2; [|congruence|destruct (Hs _ B2)].
  match type of E with context [bus ?t] => destruct (bus t) eqn:B3 end; [|congruence|destruct (Hs _ B3)].
  unfold unpack_h in E. rewrite read_back in E.
  assert (D: forall n, exists v, f_div (f_ofZ n) (f_ofZ 8000) = Ok v) by (intros n; unfold f_div; change (is_zero_f (f_ofZ 8000)) with false; eexists; reflexivity).
  match type of E with context [f_div (f_ofZ ?n) _] => destruct (D n) as [v Ev] end. rewrite Ev in E. discriminate E.
Qed.

(* ---------- termination ---------- *)
Section Ends.
Hypothesis Hbus : forall t, bus t = Works.
Variable T : nat.
Hypothesis HT : ready T = true.
Lemma busy_next t0 ch w : good_ch ch -> going t0 ch w -> (c_busy (w_chip w) = true -> (w_time w <= T)%nat) -> c_busy (chip_at w) = true -> (S (w_time w) <= T)%nat.
Proof.
  intros G (_ & _ & C & _) H B. destruct (word_fields ch G) as (_ & _ & F3 & _). unfold Ads.chip_at, chip_done in B.
  destruct (ready (w_time w)) eqn:R; [destruct (c_busy (w_chip w)) eqn:Bu|].
  - cbn [c_busy] in B. rewrite C, F3 in B. discriminate B.
  - congruence.
  - specialize (H B). enough (w_time w <> T) by lia. intros E. rewrite E in R. congruence.
Qed.
Lemma poll_ends t0 ch k : good_ch ch -> forall w, going t0 ch w -> (c_busy (w_chip w) = true -> (w_time w <= T)%nat) -> (T < w_time w + k)%nat ->
  exists fuel w', poll fuel w = Ends w' (Ok tt).
Proof.
  intros G. induction k as [k IH] using lt_wf_ind. intros w H B K.
  destruct (going_next t0 ch w G H) as (N1 & _ & _). assert (B1 := busy_next t0 ch w G H B).
  set (w1 := next w (chip_write [1] (chip_at w))). assert (H1: going t0 ch w1) by exact N1.
  destruct (going_next t0 ch w1 G H1) as (N2 & _ & P2). assert (B2 := busy_next t0 ch w1 G H1 B1). set (w2 := next w1 (chip_at w1)) in *.
  assert (Q: (Z.land (read_word (chip_at w1)) 0x8000 =? 0) = c_busy (chip_at w1)) by (apply (start_bit ch); [exact G|exact (proj1 (proj2 (proj2 N2)))|exact P2]).
  assert (E: forall fuel, poll (S fuel) w = if c_busy (chip_at w1) then poll fuel w2 else Ends w2 (Ok tt)).
  { intros fuel. cbn [Ads.poll]. unfold Ads.i2c_write. rewrite Hbus. fold w1. unfold Ads.i2c_read. rewrite Hbus. fold w2. rewrite read_back, Q. reflexivity. }
  destruct (c_busy (chip_at w1)) eqn:Bu.
  - specialize (B2 eq_refl). cbn [w1 w_time next] in B2.
    destruct (IH (k - 2)%nat ltac:(lia) w2 N2 (fun _ => B2)) as (fuel & w' & F); [unfold w2, w1; cbn [w_time next]; lia|].
    exists (S fuel), w'. now rewrite E.
  - exists 1%nat, w2. now rewrite E.
Qed.
Lemma measure_ends ch w : good_ch ch -> w_lock w = false -> (w_time w < T)%nat -> in_range ->
  exists fuel w' v, measure fuel ch w = Ends w' (Ok v).
Proof.
  intros G L Ht R. set (w1 := next (set_lock w true) (chip_write (config_bytes ch) (chip_at (set_lock w true)))).
  assert (H1: going (w_time w) ch w1).
  { destruct (word_fields ch G) as (_ & _ & F3 & F4 & F5). unfold going, w1, next, config_bytes, set_lock, chip_write. cbn [w_lock w_time w_chip]. rewrite F4, F5, Z.eqb_refl. cbn [c_config c_busy].
    split; [reflexivity|]. split; [lia|]. split; [reflexivity|]. left. now rewrite orb_true_r. }
  destruct (poll_ends (w_time w) ch (S T) G w1 H1) as (fuel & w2 & P); [intros _; cbn [w1 next w_time set_lock]; lia|lia|].
  exists fuel. unfold Ads.measure. replace ((ch <? 0) || (3 <? ch)) with false by (destruct G as [->|[->|[->| ->]]]; reflexivity). rewrite L.
  unfold Ads.i2c_write at 1. rewrite Hbus. fold w1. rewrite P. unfold Ads.i2c_write, Ads.i2c_read. rewrite !Hbus. unfold unpack_h. rewrite read_back.
  assert (D: forall n, exists v, f_div (f_ofZ n) (f_ofZ 8000) = Ok v) by (intros n; unfold f_div; change (is_zero_f (f_ofZ 8000)) with false; eexists; reflexivity).
  match goal with |- context [f_div (f_ofZ ?n) _] => destruct (D n) as [v ->] end. eexists _, v. reflexivity.
Qed.
End Ends.
End Proofs.
