(** Proofs about Gpio.v. *)
From Coq Require Import ZArith Bool Lia.
From Verif Require Import Gpio.
Local Open Scope Z_scope.

(** The three function-select bits of a pin, as a number. *)
Definition function_of (g : gpio) (p : Z) : Z := (g_fsel g (p / 10) / 2 ^ (3 * (p mod 10))) mod 8.

Lemma u32_bit v n : 0 <= n < 32 -> Z.testbit (u32 v) n = Z.testbit v n.
Proof. intros H. apply Z.mod_pow2_bits_low. lia. Qed.

Lemma field_bits w j n : 0 <= j -> 0 <= n ->
  Z.testbit ((w / 2 ^ (3 * j)) mod 8) n = (n <? 3) && Z.testbit w (3 * j + n).
Proof.
  intros Hj Hn. change 8 with (2 ^ 3). destruct (Z.ltb_spec n 3).
  - rewrite Z.mod_pow2_bits_low by lia. rewrite Z.div_pow2_bits by lia. rewrite Z.add_comm. reflexivity.
  - now rewrite Z.mod_pow2_bits_high by lia.
Qed.

(** The word written by init. *)
Definition patched (w i x : Z) : Z := Z.lor (Z.land w (Z.lnot (Z.shiftl 7 (i * 3)))) (Z.shiftl x (i * 3)).

Lemma seven_bits n : 0 <= n -> Z.testbit 7 n = (n <? 3).
Proof. intros H. change 7 with (Z.ones 3). apply Z.testbit_ones_nonneg; lia. Qed.

Lemma patched_bit w i x n : 0 <= i -> 0 <= n -> 0 <= x < 8 ->
  Z.testbit (patched w i x) n = if (3 * i <=? n) && (n <? 3 * i + 3) then Z.testbit x (n - 3 * i) else Z.testbit w n.
Proof.
  intros Hi Hn Hx. unfold patched. rewrite Z.lor_spec, Z.land_spec, Z.lnot_spec by lia.
  replace (i * 3) with (3 * i) by lia.
  destruct (Z.leb_spec (3 * i) n); cbn [andb].
  - rewrite !Z.shiftl_spec by lia. rewrite seven_bits by lia.
    destruct (Z.ltb_spec n (3 * i + 3)).
    + destruct (Z.ltb_spec (n - 3 * i) 3); [|lia]. cbn [negb andb orb]. now rewrite andb_false_r.
    + destruct (Z.ltb_spec (n - 3 * i) 3); [lia|]. cbn [negb andb orb]. rewrite andb_true_r.
      replace (Z.testbit x (n - 3 * i)) with false; [apply orb_false_r|]. symmetry.
      destruct (Z.eq_dec x 0) as [->|]; [apply Z.bits_0|]. apply Z.bits_above_log2; [lia|].
      apply Z.lt_le_trans with 3; [|lia]. apply Z.log2_lt_pow2; lia.
  - rewrite !Z.shiftl_spec by lia. rewrite !(Z.testbit_neg_r _ (n - 3 * i)) by lia. cbn [negb andb orb]. now rewrite andb_true_r, orb_false_r.
Qed.

Lemma patched_own w i x : 0 <= i < 10 -> 0 <= x < 8 -> (u32 (patched w i x) / 2 ^ (3 * i)) mod 8 = x.
Proof.
  intros Hi Hx. apply Z.bits_inj'. intros n Hn. rewrite field_bits by lia.
  destruct (Z.ltb_spec n 3); cbn [andb].
  - rewrite u32_bit by lia. rewrite patched_bit by lia.
    destruct (Z.leb_spec (3 * i) (3 * i + n)); [|lia]. destruct (Z.ltb_spec (3 * i + n) (3 * i + 3)); [|lia]. cbn. f_equal. lia.
  - symmetry. destruct (Z.eq_dec x 0) as [->|]; [apply Z.bits_0|]. apply Z.bits_above_log2; [lia|].
    apply Z.lt_le_trans with 3; [|lia]. apply Z.log2_lt_pow2; lia.
Qed.

Lemma patched_other w i x j : 0 <= i < 10 -> 0 <= j < 10 -> i <> j -> 0 <= x < 8 ->
  (u32 (patched w i x) / 2 ^ (3 * j)) mod 8 = (w / 2 ^ (3 * j)) mod 8.
Proof.
  intros Hi Hj D Hx. apply Z.bits_inj'. intros n Hn. rewrite !field_bits by lia.
  destruct (Z.ltb_spec n 3); cbn [andb]; [|reflexivity].
  rewrite u32_bit by lia. rewrite patched_bit by lia.
  destruct (Z.leb_spec (3 * i) (3 * j + n)); destruct (Z.ltb_spec (3 * j + n) (3 * i + 3)); cbn; try reflexivity. lia.
Qed.

(** Pin p is the one addressed by word p/32, bit p mod 32. *)
Lemma one_bit k n : 0 <= k < 32 -> 0 <= n < 32 -> Z.testbit (u32 (Z.shiftl 1 k)) n = (n =? k).
Proof.
  intros Hk Hn. rewrite u32_bit by lia. rewrite Z.shiftl_1_l. destruct (Z.eqb_spec n k) as [->|D].
  - apply Z.pow2_bits_true. lia.
  - apply Z.pow2_bits_false. lia.
Qed.

Lemma selects_one pin p : 0 <= pin < 64 -> 0 <= p < 64 ->
  selects (32 * (pin / 32)) (u32 (Z.shiftl 1 (pin mod 32))) p = (p =? pin).
Proof.
  intros Hpin Hp. unfold selects. pose proof (Z.div_mod pin 32). pose proof (Z.mod_pos_bound pin 32).
  destruct (Z.leb_spec (32 * (pin / 32)) p); destruct (Z.ltb_spec p (32 * (pin / 32) + 32)); cbn [andb].
  - rewrite one_bit by lia. destruct (Z.eqb_spec p pin); destruct (Z.eqb_spec (p - 32 * (pin / 32)) (pin mod 32)); lia.
  - destruct (Z.eqb_spec p pin); lia.
  - destruct (Z.eqb_spec p pin); lia.
  - lia.
Qed.

Lemma word_cases pin : 0 <= pin < 54 -> pin / 32 = 0 \/ pin / 32 = 1.
Proof. intros H. assert (0 <= pin / 32 < 2) by (split; [apply Z.div_pos; lia|apply Z.div_lt_upper_bound; lia]). lia. Qed.

Lemma fsel_reg k : 0 <= k < 6 -> (0 <=? 4 * k + 0) && (4 * k + 0 <? 24) = true /\ (4 * k + 0) / 4 = k.
Proof.
  intros H. split.
  - apply andb_true_intro. split; [apply Z.leb_le|apply Z.ltb_lt]; lia.
  - replace (4 * k + 0) with (k * 4) by lia. apply Z.div_mul. lia.
Qed.
Lemma pin_reg pin : 0 <= pin < 54 -> 0 <= pin / 10 < 6.
Proof. intros H. split; [apply Z.div_pos; lia|apply Z.div_lt_upper_bound; lia]. Qed.

Lemma write_fsel g k v : 0 <= k < 6 -> reg_write g (4 * k + 0) v =
  {| g_fsel := fun j => if j =? k then u32 v else g_fsel g j; g_latch := g_latch g; g_pull := g_pull g; g_pud := g_pud g |}.
Proof. intros H. destruct (fsel_reg k H) as [H1 H2]. unfold reg_write. rewrite H1, H2. reflexivity. Qed.
Lemma read_fsel g lev k : 0 <= k < 6 -> reg_read g lev (4 * k + 0) = g_fsel g k.
Proof. intros H. destruct (fsel_reg k H) as [H1 H2]. unfold reg_read. now rewrite H1, H2. Qed.

Lemma latch_set g pin p : 0 <= pin < 54 -> 0 <= p < 54 ->
  g_latch (gpio_set g pin) p = if p =? pin then true else g_latch g p.
Proof.
  intros H Hp. unfold gpio_set. pose proof (selects_one pin p ltac:(lia) ltac:(lia)) as S.
  destruct (word_cases pin H) as [E|E]; rewrite E in *; [change (32 * 0) with 0 in S|change (32 * 1) with 32 in S]; cbn -[selects Z.shiftl u32]; rewrite S; destruct (p =? pin); cbn; auto using orb_true_r, orb_false_r.
Qed.
Lemma latch_clear g pin p : 0 <= pin < 54 -> 0 <= p < 54 ->
  g_latch (gpio_clear g pin) p = if p =? pin then false else g_latch g p.
Proof.
  intros H Hp. unfold gpio_clear. pose proof (selects_one pin p ltac:(lia) ltac:(lia)) as S.
  destruct (word_cases pin H) as [E|E]; rewrite E in *; [change (32 * 0) with 0 in S|change (32 * 1) with 32 in S]; cbn -[selects Z.shiftl u32]; rewrite S; destruct (p =? pin); cbn; auto using andb_false_r, andb_true_r.
Qed.
Lemma set_frame g pin : 0 <= pin < 54 -> g_fsel (gpio_set g pin) = g_fsel g /\ g_pull (gpio_set g pin) = g_pull g /\ g_pud (gpio_set g pin) = g_pud g.
Proof. intros H. unfold gpio_set. destruct (word_cases pin H) as [E|E]; rewrite E; cbn; auto. Qed.
Lemma clear_frame g pin : 0 <= pin < 54 -> g_fsel (gpio_clear g pin) = g_fsel g /\ g_pull (gpio_clear g pin) = g_pull g /\ g_pud (gpio_clear g pin) = g_pud g.
Proof. intros H. unfold gpio_clear. destruct (word_cases pin H) as [E|E]; rewrite E; cbn; auto. Qed.

(** Voltage at a pin: its bit in the level registers. *)
Definition level_of (lev : Z -> Z) (pin : Z) : bool := Z.odd (lev (pin / 32) / 2 ^ (pin mod 32)).

Lemma odd_bit w k : 0 <= k -> Z.odd (w / 2 ^ k) = Z.testbit w k.
Proof. intros H. rewrite <- Z.bit0_odd, Z.div_pow2_bits by lia. f_equal. Qed.

Lemma read_level g lev pin : 0 <= pin < 54 -> gpio_read lev g pin = if level_of lev pin then 1 else 0.
Proof.
  intros H. unfold gpio_read, level_of. rewrite odd_bit by (apply Z.mod_pos_bound; lia).
  assert (B: reg_read g lev (4 * (pin / 32) + 52) = lev (pin / 32)) by (destruct (word_cases pin H) as [E|E]; rewrite E; reflexivity).
  rewrite B. set (w := lev (pin / 32)). set (k := pin mod 32). assert (K: 0 <= k) by (apply Z.mod_pos_bound; lia).
  destruct (Z.testbit w k) eqn:T.
  - destruct (Z.eqb_spec (Z.land w (Z.shiftl 1 k)) 0) as [E|E]; [|reflexivity].
    assert (X: Z.testbit (Z.land w (Z.shiftl 1 k)) k = true) by (rewrite Z.land_spec, T, Z.shiftl_1_l, Z.pow2_bits_true by lia; reflexivity).
    rewrite E, Z.bits_0 in X. discriminate.
  - replace (Z.land w (Z.shiftl 1 k)) with 0; [reflexivity|]. symmetry. apply Z.bits_inj'. intros n Hn.
    rewrite Z.land_spec, Z.bits_0, Z.shiftl_1_l. destruct (Z.eq_dec n k) as [->|D]; [now rewrite T|].
    rewrite Z.pow2_bits_false by lia. apply andb_false_r.
Qed.

(** pull_up_dn *)
Lemma clear_low v : (Z.land v (Z.lnot 3)) mod 4 = 0.
Proof.
  change 4 with (2 ^ 2). rewrite <- Z.land_ones by lia. change (Z.ones 2) with 3.
  rewrite <- Z.land_assoc, (Z.land_comm (Z.lnot 3)), Z.land_lnot_diag, Z.land_0_r. reflexivity.
Qed.
Lemma lor_low v x : v mod 4 = 0 -> 0 <= x < 4 -> (Z.lor v x) mod 4 = x.
Proof.
  intros H Hx. change 4 with (2 ^ 2) in *. rewrite <- Z.land_ones in * by lia. rewrite Z.land_lor_distr_l, H, Z.lor_0_l.
  rewrite Z.land_ones by lia. apply Z.mod_small. lia.
Qed.
Lemma u32_mod4 v : u32 v mod 4 = v mod 4.
Proof. unfold u32. change (2 ^ 32) with (4 * 2 ^ 30). rewrite Z.rem_mul_r by lia. rewrite Z.mul_comm, Z.mod_add by lia. apply Z.mod_mod. lia. Qed.

Definition pull_code (m : pin_mode) : Z := match m with ModeInputPullUp => 2 | ModeInputPullDown => 1 | _ => 0 end.

Lemma pull_frame lev g pin m : 0 <= pin < 54 ->
  g_fsel (pull_up_dn lev g pin m) = g_fsel g /\ g_latch (pull_up_dn lev g pin m) = g_latch g /\
  g_pud (pull_up_dn lev g pin m) mod 4 = 0 /\
  forall p, 0 <= p < 54 -> g_pull (pull_up_dn lev g pin m) p = if p =? pin then pull_code m else g_pull g p.
Proof.
  intros H. unfold pull_up_dn.
  set (p1 := match m with ModeInputPullUp => _ | ModeInputPullDown => _ | _ => _ end).
  assert (P1: p1 mod 4 = pull_code m).
  { unfold p1. destruct m; cbn [pull_code]; try apply clear_low; (apply lor_low; [apply clear_low|lia]). }
  assert (S0: forall first p, selects first (u32 0) p = false).
  { intros. unfold selects. change (u32 0) with 0. rewrite Z.bits_0. apply andb_false_r. }
  cbv zeta. pose proof (selects_one pin) as S.
  destruct (word_cases pin H) as [E|E]; rewrite E in *.
  - change (4 * 0 + 152) with 152. cbn -[selects Z.shiftl u32 Z.land Z.lnot Z.modulo].
    repeat apply conj; try reflexivity.
    + rewrite u32_mod4. apply clear_low.
    + intros p Hp. rewrite S0. change (32 * 0) with 0 in S. rewrite S by lia. now rewrite u32_mod4, P1.
  - change (4 * 1 + 152) with 156. cbn -[selects Z.shiftl u32 Z.land Z.lnot Z.modulo].
    repeat apply conj; try reflexivity.
    + rewrite u32_mod4. apply clear_low.
    + intros p Hp. rewrite S0. change (32 * 1) with 32 in S. rewrite S by lia. now rewrite u32_mod4, P1.
Qed.

Lemma init_word g lev pin : 0 <= pin < 54 ->
  Z.lor (Z.land (reg_read g lev (4 * (pin / 10) + 0)) (Z.lnot (Z.shiftl 7 (pin mod 10 * 3)))) (Z.shiftl 1 (pin mod 10 * 3)) = patched (g_fsel g (pin / 10)) (pin mod 10) 1 /\
  Z.land (reg_read g lev (4 * (pin / 10) + 0)) (Z.lnot (Z.shiftl 7 (pin mod 10 * 3))) = patched (g_fsel g (pin / 10)) (pin mod 10) 0.
Proof.
  intros H. rewrite read_fsel by (apply pin_reg, H). split; [reflexivity|]. unfold patched. now rewrite Z.shiftl_0_l, Z.lor_0_r.
Qed.

Lemma function_patched g pin x p : 0 <= pin < 54 -> 0 <= p < 54 -> 0 <= x < 8 ->
  function_of (reg_write g (4 * (pin / 10) + 0) (patched (g_fsel g (pin / 10)) (pin mod 10) x)) p = if p =? pin then x else function_of g p.
Proof.
  intros H Hp Hx. rewrite write_fsel by (apply pin_reg, H). unfold function_of. cbn [g_fsel].
  pose proof (Z.mod_pos_bound pin 10). pose proof (Z.mod_pos_bound p 10).
  pose proof (Z.div_mod pin 10). pose proof (Z.div_mod p 10).
  destruct (Z.eqb_spec (p / 10) (pin / 10)) as [E|E].
  - destruct (Z.eqb_spec p pin) as [->|D].
    + apply patched_own; lia.
    + rewrite E. apply patched_other; lia.
  - destruct (Z.eqb_spec p pin) as [->|D]; [lia|reflexivity].
Qed.

Lemma init_spec lev g pin m p : 0 <= pin < 54 -> 0 <= p < 54 ->
  function_of (gpio_init lev g pin m) p = (if p =? pin then match m with ModeOutput => 1 | _ => 0 end else function_of g p) /\
  g_latch (gpio_init lev g pin m) p = g_latch g p /\
  g_pull (gpio_init lev g pin m) p = (if p =? pin then match m with ModeOutput => g_pull g p | _ => pull_code m end else g_pull g p).
Proof.
  intros H Hp. unfold gpio_init. destruct (init_word g lev pin H) as [E1 E0].
  assert (I: forall mm, mm <> ModeOutput ->
    let g1 := reg_write g (4 * (pin / 10) + 0) (patched (g_fsel g (pin / 10)) (pin mod 10) 0) in
    function_of (pull_up_dn lev g1 pin mm) p = (if p =? pin then 0 else function_of g p) /\
    g_latch (pull_up_dn lev g1 pin mm) p = g_latch g p /\
    g_pull (pull_up_dn lev g1 pin mm) p = (if p =? pin then pull_code mm else g_pull g p)).
  { intros mm Hm g1. destruct (pull_frame lev g1 pin mm H) as (F & L & _ & P). split; [|split].
    - unfold function_of at 1. rewrite F. apply function_patched; lia.
    - rewrite L. unfold g1. now rewrite write_fsel by (apply pin_reg, H).
    - rewrite P by exact Hp. unfold g1. now rewrite write_fsel by (apply pin_reg, H). }
  cbv zeta. destruct m; rewrite ?E1, ?E0.
  - split; [apply function_patched; lia|]. rewrite write_fsel by (apply pin_reg, H). cbn. split; [reflexivity|]. now destruct (p =? pin).
  - now apply I.
  - now apply I.
  - now apply I.
Qed.
