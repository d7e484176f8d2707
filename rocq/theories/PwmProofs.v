(** Proofs about Pwm.v. *)
From Coq Require Import ZArith Bool Lia List.
From Verif Require Import PyBase PyNum Dma DmaGpio DmaSpec DmaGpioProofs Gpio GpioProofs Pwm PwmSpec.
Import ListNotations.
Local Open Scope Z_scope.

Section Pwm.
Variable base : Z.
Hypothesis base_ok : 0 < base /\ base + 8192 < 2 ^ 32.

(** Address of block i, its data word, and bit p of it. *)
Definition blk (i : Z) : Z := base + 32 * i.
Definition bit (m : mem) (i p : Z) : bool := Z.testbit (m (blk i + 24)) p.
Definition succ (i : Z) : Z := if i =? 255 then 0 else i + 1.

(** The control part of the blocks is as __init__ left it. *)
Definition ctrl (m : mem) : Prop := forall i, 0 <= i < 256 ->
  holds m (blk i) [pwm_info; blk i + 24; gpio_bus + (if i =? 0 then 28 else 40); 4; 0; blk (succ i)].

Lemma ctrl_mset m j v : 0 <= j < 256 -> ctrl m -> ctrl (mset m (blk j + 24) v).
Proof.
  intros Hj H i Hi. eapply holds_agree; [|exact (H i Hi)]. cbn [length]. intros x Hx. apply mset_other.
  unfold blk in *. change (4 * Z.of_nat 6) with 24 in Hx. lia.
Qed.
Lemma bit_mset m j v i p : 0 <= p < 32 -> 0 <= i < 256 -> 0 <= j < 256 ->
  bit (mset m (blk j + 24) v) i p = if i =? j then Z.testbit v p else bit m i p.
Proof.
  intros Hp Hi Hj. unfold bit. destruct (Z.eqb_spec i j) as [->|D].
  - unfold mset. rewrite Z.eqb_refl. apply Z.mod_pow2_bits_low. lia.
  - rewrite mset_other; [reflexivity|]. unfold blk. lia.
Qed.
Lemma bit_lor v pin p : 0 <= p -> 0 <= pin -> Z.testbit (Z.lor v (Z.shiftl 1 pin)) p = (p =? pin) || Z.testbit v p.
Proof.
  intros Hp Hq. rewrite Z.lor_spec, Z.shiftl_1_l. destruct (Z.eqb_spec p pin) as [->|D].
  - rewrite Z.pow2_bits_true by lia. apply orb_true_r.
  - rewrite Z.pow2_bits_false by lia. apply orb_false_r.
Qed.
Lemma bit_clr v pin p : 0 <= p -> 0 <= pin -> Z.testbit (Z.land v (Z.lnot (Z.shiftl 1 pin))) p = negb (p =? pin) && Z.testbit v p.
Proof.
  intros Hp Hq. rewrite Z.land_spec, Z.lnot_spec, Z.shiftl_1_l by lia. destruct (Z.eqb_spec p pin) as [->|D].
  - rewrite Z.pow2_bits_true by lia. apply andb_false_r.
  - rewrite Z.pow2_bits_false by lia. apply andb_true_r.
Qed.

Lemma transfer_block m i : ctrl m -> 0 <= i < 256 ->
  transfer false m (blk i) = [Store (gpio_bus + (if i =? 0 then 28 else 40)) (m (blk i + 24))] /\ next_cb m (blk i) = blk (succ i).
Proof.
  intros H Hi. specialize (H i Hi). set (d := gpio_bus + _) in *. cbn [holds] in H. destruct H as (H0 & H1 & H2 & H3 & H4 & H5 & _).
  replace (blk i + 4 + 4) with (blk i + 8) in * by lia. replace (blk i + 8 + 4) with (blk i + 12) in * by lia.
  replace (blk i + 12 + 4) with (blk i + 16) in * by lia. replace (blk i + 16 + 4) with (blk i + 20) in * by lia.
  split; [|exact H5]. unfold transfer. rewrite H0, H1, H2, H3. reflexivity.
Qed.

(** The channel is stopped or at some block of the ring. *)
Definition eng_ok (e : engine) : Prop :=
  e_active e = true -> exists i, 0 <= i < 256 /\ e_cb e = blk i /\ e_next e = blk (succ i).
Lemma succ_range i : 0 <= i < 256 -> 0 <= succ i < 256.
Proof. unfold succ. destruct (Z.eqb_spec i 255); lia. Qed.
Lemma advance_ok m e : ctrl m -> eng_ok e -> eng_ok (advance m e) /\ e_active (advance m e) = e_active e.
Proof.
  intros Hm He. unfold advance. destruct (e_active e) eqn:A; [|rewrite A; split; [exact He|reflexivity]].
  destruct (He A) as (i & Hi & E1 & E2). rewrite E2. destruct (Z.eqb_spec (blk (succ i)) 0) as [E|E].
  - pose proof (succ_range i Hi). unfold blk in E. lia.
  - cbn. split; [|reflexivity]. intros _. exists (succ i). split; [now apply succ_range|]. split; [reflexivity|].
    cbn. apply transfer_block; [exact Hm|now apply succ_range].
Qed.

(** Effect of one engine step on the levels. *)
Lemma estep_latch s p : ctrl (w_mem s) -> eng_ok (w_eng s) -> 0 <= p < 32 ->
  high (estep s) p = if e_active (w_eng s)
    then if e_cb (w_eng s) =? base then high s p || bit (w_mem s) 0 p
         else high s p && negb (bit (w_mem s) ((e_cb (w_eng s) - base) / 32) p)
    else high s p.
Proof.
  intros Hm He Hp. unfold high, estep, performed. cbn [w_gpio set_gpio set_eng].
  destruct (e_active (w_eng s)) eqn:A; [|reflexivity]. destruct (He A) as (i & Hi & E1 & E2). rewrite E1.
  destruct (transfer_block (w_mem s) i Hm Hi) as [T _]. rewrite T. cbn [apply_actions fold_left apply_action].
  replace (blk i - base) with (i * 32) by (unfold blk; lia). rewrite Z.div_mul by lia.
  assert (S: forall v, selects 0 (u32 v) p = Z.testbit v p).
  { intros v. unfold selects. destruct (Z.leb_spec 0 p); [|lia]. destruct (Z.ltb_spec p (0 + 32)); [|lia]. cbn [andb].
    rewrite Z.sub_0_r. apply u32_bit. lia. }
  destruct (Z.eqb_spec i 0) as [->|D].
  - replace (blk 0 =? base) with true by (symmetry; apply Z.eqb_eq; unfold blk; lia).
    replace (gpio_bus + 28 - gpio_bus) with 28 by lia. cbn [reg_write Z.leb Z.ltb Z.compare Pos.compare Pos.compare_cont andb Z.eqb Pos.eqb g_latch]. now rewrite S.
  - replace (blk i =? base) with false by (symmetry; apply Z.eqb_neq; unfold blk; lia).
    replace (gpio_bus + 40 - gpio_bus) with 40 by lia. cbn [reg_write Z.leb Z.ltb Z.compare Pos.compare Pos.compare_cont andb Z.eqb Pos.eqb g_latch]. now rewrite S.
Qed.
Lemma estep_frame s : w_mem (estep s) = w_mem s /\ w_dict (estep s) = w_dict s /\ w_eng (estep s) = advance (w_mem s) (w_eng s).
Proof. repeat split. Qed.

(* ---------- the memory after __init__ ---------- *)
Definition block_at (m : mem) (i nxt : Z) : Prop :=
  holds m (blk i) [pwm_info; blk i + 24; gpio_bus + (if i =? 0 then 28 else 40); 4; 0; nxt] /\ m (blk i + 24) = 0.
Lemma pwm_block_ok i : 0 <= i < 256 -> Forall (fun v => 0 <= v < 2 ^ 32) (pwm_block (blk i) (if i =? 0 then 28 else 40)).
Proof.
  intros Hi. unfold pwm_block, blk in *. assert (0 <= pwm_info < 2 ^ 32) by (cbv; split; [discriminate|reflexivity]).
  assert (gpio_bus = 2116026368) by reflexivity.
  repeat (apply Forall_cons; [destruct (i =? 0); lia|]); apply Forall_nil.
Qed.
Lemma add_block m i : 0 <= i < 256 ->
  let m' := add_control_block base m (i * 32) (if i =? 0 then 28 else 40) in
  block_at m' i (blk i + 32) /\ forall x, x < blk i \/ blk i + 32 <= x -> m' x = m x.
Proof.
  intros Hi m'. unfold m', add_control_block. replace (base + i * 32) with (blk i) by (unfold blk; lia).
  destruct (pack_ok _ m (blk i) (pwm_block_ok i Hi)) as [_ H]. split.
  - split.
    + unfold pwm_block in H. cbn [holds] in *. tauto.
    + unfold pwm_block in H. cbn [holds] in H. destruct H as (_ & _ & _ & _ & _ & _ & H & _).
      replace (blk i + 4 + 4 + 4 + 4 + 4 + 4) with (blk i + 24) in H by lia. exact H.
  - intros x Hx. apply pack_frame. cbn [pwm_block length]. change (4 * Z.of_nat 8) with 32. lia.
Qed.
Lemma block_at_agree m m' i nxt : (forall x, blk i <= x < blk i + 28 -> m' x = m x) -> block_at m i nxt -> block_at m' i nxt.
Proof.
  intros H [K E]. split.
  - eapply holds_agree; [|exact K]. cbn [length]. change (4 * Z.of_nat 6) with 24. intros x Hx. apply H. lia.
  - rewrite H by lia. exact E.
Qed.
Lemma clear_blocks_ok n : forall m i, 1 <= i -> i + Z.of_nat n <= 256 ->
  (forall x, x < blk i -> clear_blocks base m i n x = m x) /\
  (forall j, i <= j < i + Z.of_nat n -> block_at (clear_blocks base m i n) j (blk j + 32)).
Proof.
  induction n as [|n IH]; intros m i Hi Hn; cbn [clear_blocks].
  - split; [auto|]. intros j Hj. lia.
  - destruct (add_block m i ltac:(lia)) as [B F]. replace (i =? 0) with false in * by (symmetry; apply Z.eqb_neq; lia).
    destruct (IH (add_control_block base m (i * 32) 40) (i + 1) ltac:(lia) ltac:(lia)) as [F' B']. split.
    + intros x Hx. rewrite F' by (unfold blk in *; lia). apply F. lia.
    + intros j Hj. destruct (Z.eq_dec j i) as [->|D].
      * eapply block_at_agree; [|exact B]. intros x Hx. apply F'. unfold blk in *. lia.
      * apply B'. lia.
Qed.
Lemma init_memory m : ctrl (pwm_memory base m) /\ forall i p, 0 <= i < 256 -> bit (pwm_memory base m) i p = false.
Proof.
  unfold pwm_memory. destruct (add_block m 0 ltac:(lia)) as [B0 F0]. change (0 * 32) with 0 in *. cbn [Z.eqb] in *.
  destruct (clear_blocks_ok 255 (add_control_block base m 0 28) 1 ltac:(lia) ltac:(lia)) as [F B].
  set (m1 := clear_blocks _ _ _ _) in *.
  assert (A: forall i, 0 <= i < 256 -> block_at m1 i (blk i + 32)).
  { intros i Hi. destruct (Z.eq_dec i 0) as [->|D].
    - eapply block_at_agree; [|exact B0]. intros x Hx. apply F. unfold blk in *. lia.
    - apply B. lia. }
  replace (base + (255 * 32 + 20)) with (blk 255 + 20) by (unfold blk; lia). split.
  - intros i Hi. destruct (A i Hi) as [H _]. unfold succ. destruct (Z.eqb_spec i 255) as [->|D].
    + cbn [holds] in *. destruct H as (H0 & H1 & H2 & H3 & H4 & H5 & _).
      repeat apply conj; try exact I; try (rewrite mset_other by lia; assumption).
      replace (blk 255 + 4 + 4 + 4 + 4 + 4) with (blk 255 + 20) by lia. rewrite mset_same by lia. unfold blk. lia.
    + replace (blk (i + 1)) with (blk i + 32) by (unfold blk; lia). eapply holds_agree; [|exact H].
      cbn [length]. change (4 * Z.of_nat 6) with 24. intros x Hx. apply mset_other. unfold blk in *. lia.
  - intros i p Hi. unfold bit. rewrite mset_other by (unfold blk; lia). destruct (A i Hi) as [_ E]. rewrite E. apply Z.bits_0.
Qed.

(* ---------- invariant ---------- *)
Definition clean (m : mem) (p : Z) : Prop := forall i, 0 <= i < 256 -> bit m i p = false.
(** Data for [b] slots of 256. *)
Definition pattern (m : mem) (p b : Z) : Prop := bit m 0 p = true /\ forall i, 1 <= i < 256 -> bit m i p = (i =? b).
Inductive settled (s : shared) (p : Z) : Z -> Prop :=
| st_off : w_dict s p = None -> clean (w_mem s) p -> high s p = false -> settled s p 0
| st_pwm b : 0 < b < 256 -> w_dict s p = Some (b * 32 + 24) -> pattern (w_mem s) p b -> e_active (w_eng s) = true -> settled s p b
| st_on : w_dict s p = Some 24 -> clean (w_mem s) p -> high s p = true -> settled s p 256.

Definition target (k : option Z) : Z := match k with Some b => b | None => 0 end.
Definition k_ok (k : option Z) : Prop := 0 <= target k <= 256.

(** What holds for the pin of the call in progress, which wants [w] slots. *)
Definition own (s : shared) (t : pc) (w : Z -> Z) : Prop :=
  let m := w_mem s in
  match t with
  | Done => True
  | RemTest p k => 0 <= p < 32 /\ w p = target k /\ k_ok k /\ exists b, settled s p b
  | RemRead1 p k a => 0 <= p < 32 /\ w p = target k /\ k_ok k /\ w_dict s p = Some a /\ exists b, settled s p b
  | RemWrite1 p k a v => 0 <= p < 32 /\ w p = target k /\ k_ok k /\ w_dict s p = Some a /\ (exists b, settled s p b) /\ v = m (base + a)
  | RemRead2 p k => 0 <= p < 32 /\ w p = target k /\ k_ok k /\ forall i, 1 <= i < 256 -> bit m i p = false
  | RemWrite2 p k v => 0 <= p < 32 /\ w p = target k /\ k_ok k /\ (forall i, 1 <= i < 256 -> bit m i p = false) /\ v = m (base + 24)
  | RemDel p k => 0 <= p < 32 /\ w p = target k /\ k_ok k /\ clean m p
  | RemLow p k => 0 <= p < 32 /\ w p = target k /\ k_ok k /\ clean m p /\ w_dict s p = None
  | RemEmpty p k => 0 <= p < 32 /\ w p = target k /\ k_ok k /\ settled s p 0
  | RemActive p k | RemStop p k => 0 <= p < 32 /\ w p = target k /\ k_ok k /\ settled s p 0 /\ no_pins (w_dict s) = true
  | AddBranch p b => 0 <= p < 32 /\ w p = b /\ 0 <= b <= 256 /\ settled s p 0
  | AddLow p => 0 <= p < 32 /\ w p = 0 /\ settled s p 0
  | AddHigh p => 0 <= p < 32 /\ w p = 256 /\ settled s p 0
  | AddHighDict p => 0 <= p < 32 /\ w p = 256 /\ clean m p /\ high s p = true
  | AddRead1 p b => 0 <= p < 32 /\ w p = b /\ 0 < b < 256 /\ clean m p
  | AddWrite1 p b v => 0 <= p < 32 /\ w p = b /\ 0 < b < 256 /\ clean m p /\ v = m (base + 24)
  | AddRead2 p b => 0 <= p < 32 /\ w p = b /\ 0 < b < 256 /\ bit m 0 p = true /\ forall i, 1 <= i < 256 -> bit m i p = false
  | AddWrite2 p b v => 0 <= p < 32 /\ w p = b /\ 0 < b < 256 /\ bit m 0 p = true /\ (forall i, 1 <= i < 256 -> bit m i p = false) /\ v = m (base + (b * 32 + 24))
  | AddDict p b => 0 <= p < 32 /\ w p = b /\ 0 < b < 256 /\ pattern m p b
  | AddActive p b | AddRun p b => 0 <= p < 32 /\ w p = b /\ 0 < b < 256 /\ pattern m p b /\ w_dict s p = Some (b * 32 + 24)
  end.
Definition busy (t : pc) : option Z :=
  match t with
  | Done => None
  | RemTest p _ | RemRead1 p _ _ | RemWrite1 p _ _ _ | RemRead2 p _ | RemWrite2 p _ _ | RemDel p _ | RemLow p _ | RemEmpty p _
  | RemActive p _ | RemStop p _ | AddBranch p _ | AddLow p | AddHigh p | AddHighDict p | AddRead1 p _ | AddWrite1 p _ _
  | AddRead2 p _ | AddWrite2 p _ _ | AddDict p _ | AddActive p _ | AddRun p _ => Some p
  end.

Record pinv (s : shared) (t : pc) (w : Z -> Z) : Prop := {
  v_ctrl : ctrl (w_mem s);
  v_eng : eng_ok (w_eng s);
  v_rest : forall p, 0 <= p < 32 -> busy t <> Some p -> settled s p (w p);
  v_own : own s t w
}.

Ltac conjs := repeat match goal with |- _ /\ _ => first [assumption | split] end; try assumption.
(** Engine steps. *)
Lemma settled_estep s p b : ctrl (w_mem s) -> eng_ok (w_eng s) -> 0 <= p < 32 -> settled s p b -> settled (estep s) p b.
Proof.
  intros Hm He Hp H. pose proof (estep_latch s p Hm He Hp) as L. pose proof (advance_ok _ _ Hm He) as [_ A].
  assert (X: forall v, clean (w_mem s) p -> high s p = v -> high (estep s) p = v).
  { intros v C E. rewrite L. destruct (e_active (w_eng s)) eqn:Ac; [|exact E].
    destruct (He Ac) as (i & Hi & E1 & _). rewrite E1. replace (blk i - base) with (i * 32) by (unfold blk; lia). rewrite Z.div_mul by lia.
    rewrite !C by lia. destruct (blk i =? base); rewrite E; destruct v; reflexivity. }
  inversion H; subst.
  - apply st_off; auto.
  - apply st_pwm; auto. cbn. congruence.
  - apply st_on; auto.
Qed.
Lemma pinv_estep s t w : pinv s t w -> pinv (estep s) t w.
Proof.
  intros [C E R O]. pose proof (advance_ok _ _ C E) as [E' A].
  constructor; [exact C|exact E'|intros p Hp Hb; apply settled_estep; auto|].
  assert (L: forall p v, 0 <= p < 32 -> clean (w_mem s) p -> high s p = v -> high (estep s) p = v).
  { intros p v Hp K Hv. rewrite (estep_latch s p C E Hp). destruct (e_active (w_eng s)) eqn:Ac; [|exact Hv].
    destruct (E Ac) as (i & Hi & E1 & _). rewrite E1. replace (blk i - base) with (i * 32) by (unfold blk; lia). rewrite Z.div_mul by lia.
    rewrite !K by lia. destruct (blk i =? base); rewrite Hv; destruct v; reflexivity. }
  destruct t; cbn [own] in *; try exact O.
  all: try (destruct O as (Hp & Hw & Hk & b & Hs); conjs; exists b; now apply settled_estep).
  all: try (destruct O as (Hp & Hw & Hk & Ha & b & Hs); conjs; exists b; now apply settled_estep).
  all: try (destruct O as (Hp & Hw & Hk & Ha & (b & Hs) & Hv); conjs; exists b; now apply settled_estep).
  all: try (destruct O as (Hp & Hw & Hk & Hs); conjs; now apply settled_estep).
  all: try (destruct O as (Hp & Hw & Hk & Hs & Hn); conjs; now apply settled_estep).
  all: try (destruct O as (Hp & Hw & Hs); conjs; now apply settled_estep).
  destruct O as (Hp & Hw & Hk & Hh). conjs. now apply L.
Qed.

(** Thread steps: what they leave alone. *)
Lemma settled_frame s s' p b :
  w_dict s' p = w_dict s p -> (forall i, 0 <= i < 256 -> bit (w_mem s') i p = bit (w_mem s) i p) -> high s' p = high s p ->
  (w_dict s p <> None -> e_active (w_eng s) = true -> e_active (w_eng s') = true) -> settled s p b -> settled s' p b.
Proof.
  intros Hd Hb Hh Ha H. inversion H; subst.
  - apply st_off; [congruence|intros i Hi; rewrite Hb by lia; auto|congruence].
  - apply st_pwm; [assumption|congruence| |apply Ha; [congruence|assumption]].
    destruct H2 as [P1 P2]. split; [now rewrite Hb by lia|]. intros i Hi. rewrite Hb by lia. auto.
  - apply st_on; [congruence|intros i Hi; rewrite Hb by lia; auto|congruence].
Qed.

Lemma set_bit_other m j v pin p i : 0 <= j < 256 -> 0 <= p < 32 -> 0 <= i < 256 -> 0 <= pin < 32 -> p <> pin -> v = m (blk j + 24) ->
  bit (mset m (blk j + 24) (Z.lor v (Z.shiftl 1 pin))) i p = bit m i p /\
  bit (mset m (blk j + 24) (Z.land v (Z.lnot (Z.shiftl 1 pin)))) i p = bit m i p.
Proof.
  intros Hj Hp Hi Hq D ->. rewrite !bit_mset by lia. rewrite bit_lor, bit_clr by lia.
  replace (p =? pin) with false by (symmetry; apply Z.eqb_neq; exact D). cbn [orb negb andb].
  destruct (Z.eqb_spec i j) as [->|]; split; reflexivity.
Qed.

Lemma reg_latch g pin p : 0 <= pin < 32 -> 0 <= p < 32 ->
  g_latch (reg_write g 40 (Z.shiftl 1 pin)) p = (if p =? pin then false else g_latch g p) /\
  g_latch (reg_write g 28 (Z.shiftl 1 pin)) p = (if p =? pin then true else g_latch g p).
Proof.
  intros Hq Hp. pose proof (latch_clear g pin p ltac:(lia) ltac:(lia)) as C. pose proof (latch_set g pin p ltac:(lia) ltac:(lia)) as S.
  unfold gpio_clear, gpio_set in *. rewrite Z.div_small, Z.mod_small in * by lia. change (4 * 0 + 40) with 40 in C. change (4 * 0 + 28) with 28 in S. auto.
Qed.

Lemma no_pins_none d p : no_pins d = true -> 0 <= p < 32 -> d p = None.
Proof.
  intros H Hp. unfold no_pins in H. rewrite forallb_forall in H.
  specialize (H p). destruct (d p); [|reflexivity]. assert (In p all_pins).
  { unfold all_pins. apply in_map_iff. exists (Z.to_nat p). split; [lia|]. apply in_seq. lia. }
  now apply H in H0.
Qed.

(** What settled says about the dictionary. *)
Lemma settled_addr s p b a : settled s p b -> w_dict s p = Some a -> exists j, 0 <= j < 256 /\ base + a = blk j + 24 /\
  forall i, 1 <= i < 256 -> bit (w_mem s) i p = true -> i = j.
Proof.
  intros H E. inversion H as [D C L|b' Hb D P A|D C L]; subst; rewrite E in D; [discriminate| |].
  - injection D as ->. exists b. repeat split; try lia; [unfold blk; lia|]. intros i Hi B. destruct P as [_ P]. rewrite P in B by lia. now apply Z.eqb_eq.
  - injection D as ->. exists 0. repeat split; try lia; [unfold blk; lia|]. intros i Hi B. rewrite C in B by lia. discriminate.
Qed.

Ltac rest R p := let q := fresh "q" in let Hq := fresh "Hq" in let Hb := fresh "Hb" in
  intros q Hq Hb; cbn [busy] in *;
  match goal with |- settled _ q _ => assert (q <> p) by congruence end;
  eapply settled_frame; [| | | |apply R; [exact Hq|cbn; congruence]].

Lemma pinv_tstep s t w : pinv s t w -> pinv (fst (tstep base s t)) (snd (tstep base s t)) w.
Proof.
  intros [C E R O]. destruct t; cbn [own tstep fst snd] in *.
  - (* Done *) now constructor.
  - (* RemTest *) destruct O as (Hp & Hw & Hk & b & Hs). constructor; auto.
    + destruct (w_dict s pin); exact R.
    + destruct (w_dict s pin) as [a|] eqn:D; cbn [own]; conjs; try (now exists b).
      inversion Hs; subst; congruence || assumption.
  - (* RemRead1 *) destruct O as (Hp & Hw & Hk & Ha & Hs). constructor; auto. cbn. auto 10.
  - (* RemWrite1 *) destruct O as (Hp & Hw & Hk & Ha & (b & Hs) & Hv).
    destruct (settled_addr s pin b a Hs Ha) as (j & Hj & Ej & Hb). rewrite Ej in *. constructor.
    + now apply ctrl_mset.
    + exact E.
    + rest R pin; try reflexivity; auto. intros i Hi. cbn. now apply set_bit_other.
    + cbn. conjs. intros i Hi. rewrite bit_mset by lia. subst v. rewrite bit_clr by lia. rewrite Z.eqb_refl. cbn.
      destruct (Z.eqb_spec i j) as [->|D]; [reflexivity|]. destruct (bit (w_mem s) i pin) eqn:B; [|reflexivity]. apply Hb in B; [congruence|lia].
  - (* RemRead2 *) destruct O as (Hp & Hw & Hk & H). constructor; auto. cbn. auto 10.
  - (* RemWrite2 *) destruct O as (Hp & Hw & Hk & H & Hv). assert (Z24: base + 24 = blk 0 + 24) by (unfold blk; lia). rewrite Z24 in *. constructor.
    + apply ctrl_mset; [lia|exact C].
    + exact E.
    + rest R pin; try reflexivity; auto. intros i Hi. cbn. apply set_bit_other; auto; lia.
    + cbn. conjs. intros i Hi. rewrite bit_mset by lia. subst v. rewrite bit_clr by lia. rewrite Z.eqb_refl. cbn.
      destruct (Z.eqb_spec i 0) as [->|D]; [reflexivity|]. apply H. lia.
  - (* RemDel *) destruct O as (Hp & Hw & Hk & H). constructor; [exact C|exact E| |].
    + rest R pin; try reflexivity; auto. cbn. destruct (Z.eqb_spec q pin); [congruence|reflexivity].
    + cbn. rewrite Z.eqb_refl. auto.
  - (* RemLow *) destruct O as (Hp & Hw & Hk & H & D). constructor; [exact C|exact E| |].
    + rest R pin; try reflexivity; auto. unfold high. cbn [set_gpio w_gpio]. destruct (reg_latch (w_gpio s) pin q Hp Hq) as [-> _]. destruct (Z.eqb_spec q pin); [congruence|reflexivity].
    + cbn [own set_gpio w_mem w_dict]. conjs. apply st_off; [exact D|exact H|].
      unfold high. cbn [set_gpio w_gpio]. destruct (reg_latch (w_gpio s) pin pin Hp Hp) as [-> _]. now rewrite Z.eqb_refl.
  - (* RemEmpty *) destruct O as (Hp & Hw & Hk & H). destruct (no_pins (w_dict s)) eqn:Ne.
    + constructor; auto. cbn. auto 10.
    + destruct k as [b|]; cbn [removed target] in *; constructor; auto; cbn; auto.
      intros p Hq _. destruct (Z.eq_dec p pin) as [->|D]; [now rewrite Hw|]. apply R; [exact Hq|cbn; congruence].
  - (* RemActive *) destruct O as (Hp & Hw & Hk & H & Ne). destruct (e_active (w_eng s)) eqn:A.
    + constructor; auto. cbn. auto 10.
    + destruct k as [b|]; cbn [removed target] in *; constructor; auto; cbn; auto.
      intros p Hq _. destruct (Z.eq_dec p pin) as [->|D]; [now rewrite Hw|]. apply R; [exact Hq|cbn; congruence].
  - (* RemStop *) destruct O as (Hp & Hw & Hk & H & Ne).
    assert (F: forall p b, 0 <= p < 32 -> settled s p b -> settled (set_eng s stop_dma) p b).
    { intros p b Hq K. eapply settled_frame; [| | | |exact K]; try reflexivity. intros Hd. rewrite (no_pins_none _ p Ne Hq) in Hd. congruence. }
    assert (S0: eng_ok stop_dma) by (intros X; discriminate X).
    destruct k as [b|]; cbn [removed target] in *; (constructor; [exact C|exact S0| |]); cbn [own busy].
    + intros p Hq Hb. apply F; auto.
    + conjs. now apply F.
    + intros p Hq _. apply F; [exact Hq|]. destruct (Z.eq_dec p pin) as [->|D]; [now rewrite Hw|]. apply R; [exact Hq|cbn; congruence].
    + exact I.
  - (* AddBranch *) destruct O as (Hp & Hw & Hk & H). destruct (Z.eqb_spec b 0) as [->|D0]; [|destruct (Z.eqb_spec b 256) as [->|D1]].
    + constructor; auto. cbn. auto.
    + constructor; auto. cbn. auto.
    + constructor; auto. cbn. conjs; try lia. inversion H; subst; [assumption|lia].
  - (* AddLow *) destruct O as (Hp & Hw & H). constructor; [exact C|exact E| |exact I].
    intros q Hq _. eapply settled_frame with (s := s); try reflexivity; auto.
    + unfold high. cbn [set_gpio w_gpio]. destruct (reg_latch (w_gpio s) pin q Hp Hq) as [-> _]. destruct (Z.eqb_spec q pin) as [->|]; [|reflexivity].
      inversion H; subst; [|lia]. now symmetry.
    + destruct (Z.eq_dec q pin) as [->|D]; [now rewrite Hw|]. apply R; [exact Hq|cbn; congruence].
  - (* AddHigh *) destruct O as (Hp & Hw & H). constructor; [exact C|exact E| |].
    + rest R pin; try reflexivity; auto. unfold high. cbn [set_gpio w_gpio]. destruct (reg_latch (w_gpio s) pin q Hp Hq) as [_ ->]. destruct (Z.eqb_spec q pin); [congruence|reflexivity].
    + cbn [own set_gpio w_mem w_dict]. conjs.
      * inversion H; subst; [assumption|lia].
      * unfold high. cbn [set_gpio w_gpio]. destruct (reg_latch (w_gpio s) pin pin Hp Hp) as [_ ->]. now rewrite Z.eqb_refl.
  - (* AddHighDict *) destruct O as (Hp & Hw & H & Hh). constructor; [exact C|exact E| |exact I].
    intros q Hq _. destruct (Z.eq_dec q pin) as [->|D].
    + rewrite Hw. apply st_on; [cbn; now rewrite Z.eqb_refl|exact H|exact Hh].
    + eapply settled_frame; [| | | |apply R; [exact Hq|cbn; congruence]]; try reflexivity; auto. cbn. destruct (Z.eqb_spec q pin); [congruence|reflexivity].
  - (* AddRead1 *) destruct O as (Hp & Hw & Hk & H). constructor; auto. cbn. auto 10.
  - (* AddWrite1 *) destruct O as (Hp & Hw & Hk & H & Hv). assert (Z24: base + 24 = blk 0 + 24) by (unfold blk; lia). rewrite Z24 in *. constructor.
    + apply ctrl_mset; [lia|exact C].
    + exact E.
    + rest R pin; try reflexivity; auto. intros i Hi. cbn. apply set_bit_other; auto; lia.
    + cbn. conjs.
      * rewrite bit_mset by lia. rewrite bit_lor by lia. rewrite !Z.eqb_refl; reflexivity.
      * intros i Hi. rewrite bit_mset by lia. destruct (Z.eqb_spec i 0); [lia|]. apply H. lia.
  - (* AddRead2 *) destruct O as (Hp & Hw & Hk & H0 & H). constructor; auto. cbn. auto 10.
  - (* AddWrite2 *) destruct O as (Hp & Hw & Hk & H0 & H & Hv). assert (Zb: base + (b * 32 + 24) = blk b + 24) by (unfold blk; lia). rewrite Zb in *. constructor.
    + apply ctrl_mset; [lia|exact C].
    + exact E.
    + rest R pin; try reflexivity; auto. intros i Hi. cbn. apply set_bit_other; auto; lia.
    + cbn. conjs. split.
      * rewrite bit_mset by lia. destruct (Z.eqb_spec 0 b); [lia|exact H0].
      * intros i Hi. rewrite bit_mset by lia. destruct (Z.eqb_spec i b) as [->|]; [|apply H; lia].
        rewrite bit_lor by lia. now rewrite Z.eqb_refl.
  - (* AddDict *) destruct O as (Hp & Hw & Hk & H). constructor; [exact C|exact E| |].
    + rest R pin; try reflexivity; auto. cbn. destruct (Z.eqb_spec q pin); [congruence|reflexivity].
    + cbn. rewrite Z.eqb_refl. auto.
  - (* AddActive *) destruct O as (Hp & Hw & Hk & H & D). destruct (e_active (w_eng s)) eqn:A.
    + constructor; auto; [|exact I]. intros q Hq _. destruct (Z.eq_dec q pin) as [->|Dq]; [rewrite Hw; apply st_pwm; auto|]. apply R; [exact Hq|cbn; congruence].
    + constructor; auto. cbn. auto 10.
  - (* AddRun *) destruct O as (Hp & Hw & Hk & H & D). constructor; [exact C| | |exact I].
    + intros _. exists 0. cbn. repeat split; try lia; [unfold blk; lia|]. replace base with (blk 0) at 1 by (unfold blk; lia). apply transfer_block; [exact C|lia].
    + intros q Hq _. destruct (Z.eq_dec q pin) as [->|Dq]; [rewrite Hw; apply st_pwm; auto|].
      eapply settled_frame; [| | | |apply R; [exact Hq|cbn; congruence]]; try reflexivity; auto.
Qed.

(** One round of the ring. *)
Lemma later_S n s : later (S n) s = estep (later n s).
Proof. reflexivity. Qed.
Lemma round s w : pinv s Done w -> e_active (w_eng s) = true -> e_cb (w_eng s) = base -> forall j, (j < 256)%nat ->
  let s' := later (S j) s in
  pinv s' Done w /\ e_active (w_eng s') = true /\ e_cb (w_eng s') = blk (succ (Z.of_nat j)) /\ w_mem s' = w_mem s /\
  forall p, 0 <= p < 32 -> high s' p = (Z.of_nat j <? w p).
Proof.
  intros V A B j. induction j as [|j IH]; intros Hj s'.
  - unfold s'. rewrite later_S. change (later 0 s) with s. pose proof V as [C E R O]. destruct (advance_ok _ _ C E) as [_ A'].
    split; [now apply pinv_estep|]. split; [etransitivity; [exact A'|assumption]|]. split; [|split; [reflexivity|]].
    + cbn [estep set_gpio set_eng w_eng]. unfold advance. rewrite A. destruct (E A) as (i & Hi & E1 & E2).
      assert (i = 0) by (rewrite B in E1; unfold blk in E1; lia). subst i. rewrite E2.
      destruct (Z.eqb_spec (blk (succ 0)) 0); [unfold blk in *; cbn in *; lia|]. reflexivity.
    + intros p Hp. rewrite (estep_latch s p C E Hp), A, B, Z.eqb_refl. pose proof (R p Hp ltac:(discriminate)) as S.
      inversion S as [D K L Hb|b Hb D P X Hw|D K L Hb].
      * rewrite L, K by lia. reflexivity.
      * destruct P as [P _]. rewrite P, orb_true_r. symmetry. apply Z.ltb_lt. lia.
      * rewrite L. reflexivity.
  - specialize (IH ltac:(lia)). cbv zeta in IH. destruct IH as (V1 & A1 & B1 & M1 & H1). unfold s'. rewrite later_S. set (s1 := later (S j) s) in *.
    pose proof V1 as [C E R O]. destruct (advance_ok _ _ C E) as [_ A'].
    assert (Sj: succ (Z.of_nat j) = Z.of_nat (S j)). { unfold succ. destruct (Z.eqb_spec (Z.of_nat j) 255); lia. }
    rewrite Sj in B1.
    split; [now apply pinv_estep|]. split; [etransitivity; [exact A'|assumption]|]. split; [|split; [exact M1|]].
    + cbn [estep set_gpio set_eng w_eng]. unfold advance. rewrite A1. destruct (E A1) as (i & Hi & E1 & E2).
      assert (i = Z.of_nat (S j)) by (rewrite B1 in E1; unfold blk in E1; lia). subst i. rewrite E2.
      pose proof (succ_range (Z.of_nat (S j)) Hi). destruct (Z.eqb_spec (blk (succ (Z.of_nat (S j)))) 0); [unfold blk in *; lia|]. reflexivity.
    + intros p Hp. rewrite (estep_latch s1 p C E Hp), A1, B1. destruct (Z.eqb_spec (blk (Z.of_nat (S j))) base); [unfold blk in *; lia|].
      replace (blk (Z.of_nat (S j)) - base) with (Z.of_nat (S j) * 32) by (unfold blk; lia). rewrite Z.div_mul by lia. rewrite (H1 p Hp).
      pose proof (R p Hp ltac:(discriminate)) as S.
      inversion S as [D K L Hb|b Hb D P X Hw|D K L Hb].
      * rewrite K by lia. destruct (Z.ltb_spec (Z.of_nat j) 0), (Z.ltb_spec (Z.of_nat (Datatypes.S j)) 0); try lia; reflexivity.
      * destruct P as [_ P]. rewrite P by lia.
        destruct (Z.ltb_spec (Z.of_nat j) (w p)), (Z.ltb_spec (Z.of_nat (Datatypes.S j)) (w p)), (Z.eqb_spec (Z.of_nat (Datatypes.S j)) (w p)); try lia; reflexivity.
      * rewrite K by lia. destruct (Z.ltb_spec (Z.of_nat j) 256), (Z.ltb_spec (Z.of_nat (Datatypes.S j)) 256); try lia; reflexivity.
Qed.

Section Runs.
Context {N : PyNum}.
Hypothesis blocks_ok : forall (d : N) b, block_number d = Ok b -> 0 <= b <= 256.

Lemma runs_inv (h : list (call N)) s t : runs base h s t -> pinv s t (wanted h).
Proof.
  induction 1 as [m g L|h s c t H IH B|h s t H IH|h s t H IH].
  - destruct (init_memory m) as [C K]. constructor; [exact C|intros X; discriminate X| |exact I].
    intros p Hp _. apply st_off; [reflexivity| |exact (L p Hp)]. intros i Hi. now apply K.
  - destruct IH as [C E R O]. inversion B as [pin duty b Hp Hb|pin Hp]; subst; constructor; try assumption.
    + intros p Hq Hn. cbn [wanted busy] in *. destruct (Z.eqb_spec pin p); [congruence|]. apply R; [exact Hq|discriminate].
    + cbn [own wanted]. rewrite Z.eqb_refl, Hb. split; [exact Hp|]. split; [reflexivity|]. split; [exact (blocks_ok _ _ Hb)|].
      exists (wanted h pin). apply R; [exact Hp|discriminate].
    + intros p Hq Hn. cbn [wanted busy] in *. destruct (Z.eqb_spec pin p); [congruence|]. apply R; [exact Hq|discriminate].
    + cbn [own wanted]. rewrite Z.eqb_refl. split; [exact Hp|]. split; [reflexivity|]. split; [cbv; split; discriminate|].
      exists (wanted h pin). apply R; [exact Hp|discriminate].
  - now apply pinv_tstep.
  - now apply pinv_estep.
Qed.

(** The call in progress is the newest one. *)
Lemma busy_tstep s t : busy (snd (tstep base s t)) = None \/ busy (snd (tstep base s t)) = busy t.
Proof.
  destruct t; unfold tstep, removed; cbn [snd busy]; auto;
  repeat match goal with |- context [match ?x with _ => _ end] => destruct x; cbn [busy removed]; auto end.
Qed.
Lemma busy_done t : busy t = None -> t = Done.
Proof. destruct t; cbn; congruence. Qed.
Lemma runs_busy (h : list (call N)) s t : runs base h s t -> t = Done \/ exists c r, h = c :: r /\ busy t = Some (pin_of c).
Proof.
  induction 1 as [m g L|h s c t H IH B|h s t H IH|h s t H IH]; auto.
  - right. exists c, h. split; [reflexivity|]. inversion B; subst; reflexivity.
  - destruct (busy_tstep s t) as [E|E]; [left; now apply busy_done|]. destruct IH as [->|(c & r & -> & Eb)]; [left; reflexivity|].
    right. exists c, r. split; [reflexivity|congruence].
Qed.
Lemma runs_low (h : list (call N)) s t p : runs base h s t -> 0 <= p < 32 -> wanted h p = 0 ->
  (t = Done \/ forall c r, h = c :: r -> pin_of c <> p) -> high s p = false.
Proof.
  intros H Hp W O. pose proof (runs_busy h s t H) as Bz. apply runs_inv in H. destruct H as [C E R _].
  assert (S: settled s p (wanted h p)).
  { apply R; [exact Hp|]. destruct O as [->|O]; [discriminate|]. destruct Bz as [->|(c & r & -> & Eb)]; [discriminate|].
    rewrite Eb. intros X. injection X as X. exact (O c r eq_refl X). }
  rewrite W in S. inversion S; [assumption|lia].
Qed.
Lemma runs_later (h : list (call N)) s t n : runs base h s t -> runs base h (later n s) t.
Proof. induction n as [|n IH]; intros H; [exact H|]. rewrite later_S. apply runs_engine. auto. Qed.
(** Between calls. *)
Lemma runs_level (h : list (call N)) s p : runs base h s Done -> 0 <= p < 32 ->
  (wanted h p = 0 -> high s p = false) /\ (wanted h p = 256 -> high s p = true) /\
  (0 < wanted h p < 256 -> e_active (w_eng s) = true) /\ 0 <= wanted h p <= 256.
Proof.
  intros H Hp. apply runs_inv in H. destruct H as [C E R O]. specialize (R p Hp ltac:(discriminate)).
  inversion R as [D K L Hb|b Hb D P X Hw|D K L Hb]; repeat split; intros; try lia; try assumption.
Qed.
Lemma runs_round (h : list (call N)) s : runs base h s Done -> e_active (w_eng s) = true -> e_cb (w_eng s) = base ->
  (forall j p, (j < 256)%nat -> 0 <= p < 32 -> high (later (S j) s) p = (Z.of_nat j <? wanted h p)) /\
  e_active (w_eng (later 256 s)) = true /\ e_cb (w_eng (later 256 s)) = base.
Proof.
  intros H A B. apply runs_inv in H. pose proof (round s _ H A B) as K. split; [|split].
  - intros j p Hj Hp. now apply K.
  - destruct (K 255%nat ltac:(lia)) as (_ & X & _). exact X.
  - destruct (K 255%nat ltac:(lia)) as (_ & _ & X & _). rewrite X. unfold blk, succ. cbn [Z.of_nat Z.eqb]. change (Z.of_nat 255 =? 255) with true. cbn. lia.
Qed.
(** The engine comes to the first block. *)
Lemma runs_first (h : list (call N)) s t : runs base h s t -> e_active (w_eng s) = true -> exists n, (n < 256)%nat /\
  e_active (w_eng (later n s)) = true /\ e_cb (w_eng (later n s)) = base.
Proof.
  intros H A. apply runs_inv in H. destruct (v_eng _ _ _ H A) as (i & Hi & E1 & _).
  assert (G: forall k i s, pinv s t (wanted h) -> e_active (w_eng s) = true -> e_cb (w_eng s) = blk i -> 0 < i < 256 -> i + Z.of_nat k = 256 ->
     e_active (w_eng (later k s)) = true /\ e_cb (w_eng (later k s)) = base).
  { clear - base_ok. induction k as [|k IH]; intros i s V A E Hi Hk.
    - lia.
    - replace (later (S k) s) with (later k (estep s)).
      2:{ unfold later. clear. induction k; cbn in *; [reflexivity|]. now rewrite <- IHk. }
      pose proof V as [C Eg R O]. destruct (advance_ok _ _ C Eg) as [_ A']. pose proof (pinv_estep _ _ _ V) as V'.
      assert (Ne: e_cb (w_eng (estep s)) = blk (succ i)).
      { cbn [estep set_gpio set_eng w_eng]. unfold advance. rewrite A. destruct (Eg A) as (j & Hj & E1 & E2).
        assert (j = i) by (rewrite E in E1; unfold blk in E1; lia). subst j. rewrite E2. pose proof (succ_range i ltac:(lia)).
        destruct (Z.eqb_spec (blk (succ i)) 0); [unfold blk in *; lia|]. reflexivity. }
      unfold succ in Ne. destruct (Z.eqb_spec i 255) as [->|D].
      + assert (k = 0)%nat by lia. subst k. change (later 0 (estep s)) with (estep s). split; [etransitivity; [exact A'|assumption]|]. rewrite Ne. unfold blk. lia.
      + apply (IH (i + 1)); [exact V'|etransitivity; [exact A'|assumption]|exact Ne|lia|lia]. }
  destruct (Z.eq_dec i 0) as [->|D].
  - exists 0%nat. split; [lia|]. split; [exact A|]. cbn. rewrite E1. unfold blk. lia.
  - exists (Z.to_nat (256 - i)). split; [lia|]. apply (G _ i); try assumption; lia.
Qed.
End Runs.

End Pwm.
