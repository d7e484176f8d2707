(** Proofs about hal.move. *)
From Coq Require Import ZArith Bool Lia List.
From Verif Require Import PyBase PyNum Config Coordinates Pulses PulseSpec Dma Gpio DmaGpio DmaSpec DmaGpioProofs Pwm Hal HalSpec.
From Coq Require Import List.
Import ListNotations.
Local Open Scope Z_scope.

(** Stores to the read-only level register do nothing. *)
Definition is_idle (a : action) : bool := match a with Store x _ => x =? 0x7E200034 | _ => false end.
Definition eff (l : list action) : list action := filter (fun a => negb (is_idle a)) l.
Lemma eff_app l1 l2 : eff (l1 ++ l2) = eff l1 ++ eff l2.
Proof. apply filter_app. Qed.
Lemma seen_eff l : forall t, seen t (eff l) = seen t l.
Proof.
  induction l as [|a l IH]; intros t; [reflexivity|]. unfold eff. cbn [filter]. fold (eff l).
  destruct a as [x v|x n|n]; cbn [is_idle negb].
  - destruct (Z.eqb_spec x 0x7E200034) as [->|H]; cbn [negb].
    + cbn [seen Z.eqb Pos.eqb app]. apply IH.
    + cbn [seen]. now rewrite IH.
  - cbn [seen]. destruct (x =? _); now rewrite IH.
  - cbn [seen]. now rewrite IH.
Qed.

(** One of the two kinds of blocks DMAGPIO writes; the data is inside of the block. *)
Definition block_ok (m : mem) (cb : Z) : Prop :=
  m cb = delay_info \/
  (m cb = pulse_info /\ m (cb + 4) = cb + 24 /\ m (cb + 8) = pulse_destination /\ m (cb + 12) = pulse_length /\ m (cb + 16) = pulse_stride).
Lemma block_transfer extra m cb : block_ok m cb ->
  (m cb = delay_info /\ transfer extra m cb = [Paced (m (cb + 8)) (m (cb + 12) mod 2 ^ 30)]) \/
  (m cb = pulse_info /\ eff (transfer extra m cb) = [Store 0x7E20001C (m (cb + 24)); Store 0x7E200028 (m (cb + 28))]).
Proof.
  intros [H|(H0 & H1 & H2 & H3 & H4)].
  - left. split; [exact H|]. unfold transfer. rewrite H.
    change (Z.testbit delay_info 7) with false. change (Z.testbit delay_info 6) with true. reflexivity.
  - right. split; [exact H0|].
    destruct (transfer_set_clear extra m cb (m (cb + 24)) (m (cb + 28)) (m (cb + 20))) as [T _].
    { cbn [holds]. rewrite <- !Z.add_assoc. cbn [Z.add Pos.add Pos.succ Pos.add_carry]. repeat split; assumption. }
    rewrite T. destruct extra; reflexivity.
Qed.
Lemma block_agree m m' cb : (forall x, cb <= x < cb + 20 -> m' x = m x) -> block_ok m cb -> block_ok m' cb.
Proof.
  intros A [H|(H0 & H1 & H2 & H3 & H4)]; [left; rewrite A by lia; exact H|right].
  rewrite !A by lia. auto.
Qed.
Lemma block_local extra m m' cb : block_ok m cb -> (forall x, cb <= x < cb + 32 -> x <> cb + 20 -> m' x = m x) ->
  eff (transfer extra m' cb) = eff (transfer extra m cb).
Proof.
  intros B A. assert (B': block_ok m' cb) by (eapply block_agree; [|exact B]; intros x Hx; apply A; lia).
  destruct (block_transfer extra m cb B) as [[H T]|[H T]]; destruct (block_transfer extra m' cb B') as [[H' T']|[H' T']];
    rewrite A in H' by lia; rewrite H in H'; try discriminate H'; rewrite T, T'; rewrite !A by lia; reflexivity.
Qed.

Section Blocks.
Variable base : Z.
Definition at_ (j : nat) : Z := base + 32 * Z.of_nat j.
(** [n] blocks from [base] on, each followed by the next one; the last one by [fin]. *)
Definition chain (m : mem) (fin : Z) (n : nat) : Prop :=
  forall j, (j < n)%nat -> block_ok m (at_ j) /\ m (at_ j + 20) = if Nat.eqb (S j) n then fin else at_ (S j).
(** What blocks [j], ... do. *)
Definition acts (extra : bool) (m : mem) (j k : nat) : list action := flat_map (fun i => transfer extra m (at_ i)) (seq j k).

Lemma chain_plays extra m n : 0 < base -> chain m 0 n -> forall k j, (j + S k = n)%nat -> plays extra m (at_ j) (acts extra m j (S k)).
Proof.
  intros B C. induction k as [|k IH]; intros j E; unfold acts; cbn [seq flat_map].
  - apply plays_block; [unfold at_; lia|]. destruct (C j ltac:(lia)) as [_ H]. unfold next_cb. rewrite H.
    replace (Nat.eqb (S j) n) with true by (symmetry; apply Nat.eqb_eq; lia). constructor.
  - apply plays_block; [unfold at_; lia|]. destruct (C j ltac:(lia)) as [_ H]. unfold next_cb. rewrite H.
    replace (Nat.eqb (S j) n) with false by (symmetry; apply Nat.eqb_neq; lia). apply (IH (S j)). lia.
Qed.

(** One request is one or three blocks. *)
Lemma words_chain m a nxt r : holds m a (words_of a nxt r) ->
  forall j, 0 <= j < bytes_of r / 32 -> block_ok m (a + 32 * j) /\
    m (a + 32 * j + 20) = if (j + 1) * 32 =? bytes_of r then nxt else a + 32 * (j + 1).
Proof.
  intros H j Hj. destruct r as [mask us|us|s c]; cbn [words_of holds bytes_of] in *; cbv [Z.div Z.div_eucl] in Hj; cbn in Hj.
  - repeat match type of H with _ /\ _ => let H1 := fresh in destruct H as [H1 H] end.
    rewrite <- !Z.add_assoc in *. cbn [Z.add Pos.add Pos.succ Pos.add_carry] in *.
    assert (J: j = 0 \/ j = 1 \/ j = 2) by lia. destruct J as [->|[->| ->]]; cbn [Z.mul Z.add Z.eqb Pos.mul Pos.add Pos.succ Pos.add_carry Pos.eqb];
      rewrite ?Z.add_0_r; (split; [|rewrite <- ?Z.add_assoc; cbn [Z.add Pos.add Pos.succ Pos.add_carry]; assumption]).
    + right. repeat split; assumption.
    + left. assumption.
    + right. rewrite <- !Z.add_assoc. cbn [Z.add Pos.add Pos.succ Pos.add_carry]. repeat split; assumption.
  - repeat match type of H with _ /\ _ => let H1 := fresh in destruct H as [H1 H] end.
    rewrite <- !Z.add_assoc in *. cbn [Z.add Pos.add Pos.succ Pos.add_carry] in *.
    assert (j = 0) as -> by lia. cbn [Z.mul Z.add Z.eqb Pos.mul Pos.add Pos.succ Pos.add_carry Pos.eqb]. rewrite Z.add_0_r.
    split; [left; assumption|assumption].
  - repeat match type of H with _ /\ _ => let H1 := fresh in destruct H as [H1 H] end.
    rewrite <- !Z.add_assoc in *. cbn [Z.add Pos.add Pos.succ Pos.add_carry] in *.
    assert (j = 0) as -> by lia. cbn [Z.mul Z.add Z.eqb Pos.mul Pos.add Pos.succ Pos.add_carry Pos.eqb]. rewrite Z.add_0_r.
    split; [right; repeat split; assumption|assumption].
Qed.
End Blocks.

Section Buffer.
Variable base size : Z.
Hypothesis base_ok : 0 < base.
Notation at_ := (at_ base).
Notation chain := (chain base).

Definition blocks_of (r : req) : nat := match r with DmaGpio.Pulse _ _ => 3 | _ => 1 end.
Definition blocks (l : list req) : nat := fold_right (fun r n => (blocks_of r + n)%nat) O l.
Lemma bytes_blocks r : bytes_of r = 32 * Z.of_nat (blocks_of r).
Proof. destruct r; reflexivity. Qed.
Lemma bytes_blocks_l l : bytes l = 32 * Z.of_nat (blocks l).
Proof. induction l as [|r l IH]; [reflexivity|]. rewrite bytes_cons, IH, bytes_blocks. cbn [blocks fold_right]. fold (blocks l). lia. Qed.
Lemma blocks_pos r : (0 < blocks_of r)%nat.
Proof. destruct r; cbn; lia. Qed.
Lemma blocks_app l1 l2 : blocks (l1 ++ l2) = (blocks l1 + blocks l2)%nat.
Proof. induction l1 as [|r l IH]; [reflexivity|]. cbn [app blocks fold_right]. fold (blocks (l ++ l2)) (blocks l). lia. Qed.

Lemma add_chain d r d' n : d_addr d = 32 * Z.of_nat n -> chain (d_mem d) (base + d_addr d) n -> add base size d r = (d', Ok tt) ->
  d_addr d' = 32 * Z.of_nat (n + blocks_of r) /\ d_addr d' <= size /\ chain (d_mem d') (base + d_addr d') (n + blocks_of r) /\
  (forall x, x < base + d_addr d -> d_mem d' x = d_mem d x).
Proof.
  intros A C E. pose proof (add_addr base size d r) as A'. pose proof (add_holds base size d r) as K. pose proof (add_fits base size d r) as F.
  pose proof (fun x => add_frame base size d r x ltac:(lia)) as M. rewrite E in *. cbn [fst snd] in *. specialize (K eq_refl). specialize (F eq_refl).
  rewrite bytes_blocks in *. split; [lia|]. split; [lia|]. split; [|intros x Hx; apply M; lia].
  intros j Hj. destruct (Nat.ltb_spec j n) as [L|L].
  - destruct (C j L) as [C1 C2]. split.
    + eapply block_agree; [|exact C1]. intros x Hx. apply M. unfold MoveProofs.at_ in Hx. lia.
    + rewrite M by (unfold MoveProofs.at_; lia). rewrite C2. pose proof (blocks_pos r).
      replace (Nat.eqb (S j) (n + blocks_of r)) with false by (symmetry; apply Nat.eqb_neq; lia).
      destruct (Nat.eqb_spec (S j) n) as [E'|E']; [|reflexivity]. unfold MoveProofs.at_. lia.
  - destruct (words_chain _ _ _ _ K (Z.of_nat (j - n))) as [C1 C2].
    { rewrite bytes_blocks, Z.mul_comm, Z.div_mul by lia. lia. }
    rewrite bytes_blocks in C2. replace (base + d_addr d + 32 * Z.of_nat (j - n)) with (at_ j) in * by (unfold MoveProofs.at_; lia).
    split; [exact C1|]. rewrite C2. destruct (Z.eqb_spec ((Z.of_nat (j - n) + 1) * 32) (32 * Z.of_nat (blocks_of r))) as [E1|E1].
    + replace (Nat.eqb (S j) (n + blocks_of r)) with true by (symmetry; apply Nat.eqb_eq; lia). lia.
    + replace (Nat.eqb (S j) (n + blocks_of r)) with false by (symmetry; apply Nat.eqb_neq; lia). unfold MoveProofs.at_. lia.
Qed.
Lemma adds_chain l : forall d d' n, d_addr d = 32 * Z.of_nat n -> chain (d_mem d) (base + d_addr d) n -> adds base size d l = (d', Ok tt) ->
  d_addr d' = 32 * Z.of_nat (n + blocks l) /\ (l <> [] -> d_addr d' <= size) /\ chain (d_mem d') (base + d_addr d') (n + blocks l).
Proof.
  induction l as [|r l IH]; intros d d' n A C E.
  - cbn in E. injection E as <-. cbn [blocks fold_right]. rewrite Nat.add_0_r. repeat split; try assumption; [congruence|now apply C|now apply C].
  - cbn [adds] in E. destruct (add base size d r) as [d1 [[]|e]] eqn:E1; [|discriminate].
    destruct (add_chain d r d1 n A C E1) as (A1 & F1 & C1 & _).
    destruct (IH d1 d' _ A1 C1 E) as (A2 & F2 & C2). cbn [blocks fold_right]. fold (blocks l). rewrite Nat.add_assoc.
    split; [exact A2|]. split; [|exact C2]. intros _. destruct l as [|r' l]; [cbn in E; injection E as <-; exact F1|apply F2; discriminate].
Qed.
Lemma clear_chain d : d_addr (clear d) = 32 * Z.of_nat 0 /\ chain (d_mem (clear d)) (base + d_addr (clear d)) 0.
Proof. split; [reflexivity|]. intros j Hj. lia. Qed.
Lemma final_chain d d' n : d_addr d = 32 * Z.of_nat (S n) -> chain (d_mem d) (base + d_addr d) (S n) -> finalize_stream base size d = (d', Ok tt) ->
  d_addr d' = d_addr d /\ chain (d_mem d') 0 (S n) /\ (forall x, x <> at_ n + 20 -> d_mem d' x = d_mem d x).
Proof.
  intros A C E. unfold finalize_stream in E. destruct (_ && _); [|discriminate]. injection E as <-. cbn [d_addr d_mem].
  replace (base + (d_addr d + 20 - 32)) with (at_ n + 20) by (unfold MoveProofs.at_; lia).
  split; [reflexivity|]. split; [|intros x Hx; now apply mset_other].
  intros j Hj. destruct (C j Hj) as [C1 C2]. split.
  - eapply block_agree; [|exact C1]. intros x Hx. apply mset_other. unfold MoveProofs.at_ in *. lia.
  - destruct (Nat.eqb_spec (S j) (S n)) as [E|E].
    + replace (at_ j + 20) with (at_ n + 20) by (unfold MoveProofs.at_; lia). apply mset_same. lia.
    + rewrite mset_other by (unfold MoveProofs.at_; lia). exact C2.
Qed.
Lemma run_final d d' : run base size d false = (d', Ok tt) -> finalize_stream base size d = (d', Ok tt) /\ d_addr d <> 0.
Proof. unfold run. destruct (Z.eqb_spec (d_addr d) 0); [discriminate|]. auto. Qed.
Lemma final_run d : d_addr d <> 0 -> run base size d false = finalize_stream base size d.
Proof. intros H. unfold run. destruct (Z.eqb_spec (d_addr d) 0); [contradiction|reflexivity]. Qed.

Lemma loaded_chain d l : loaded base size d l -> exists n, blocks l = S n /\ d_addr d = bytes l /\ bytes l <= size /\ chain (d_mem d) 0 (S n).
Proof.
  intros (d0 & d1 & E & R). apply run_final in R. destruct R as [R Z0].
  destruct (clear_chain d0) as [A C]. destruct (adds_chain l _ _ _ A C E) as (A1 & F1 & C1). cbn [Nat.add] in *.
  destruct (blocks l) as [|n] eqn:B; [cbn in A1; congruence|]. exists n. split; [reflexivity|].
  destruct (final_chain _ _ _ A1 C1 R) as (A2 & C2 & _). rewrite bytes_blocks_l, B. split; [congruence|]. split; [|exact C2].
  destruct l as [|r l]; [discriminate|]. rewrite <- A1. apply F1. discriminate.
Qed.
Lemma chain_at m fin n cb : chain m fin n -> on_chain m base cb -> (0 < n)%nat -> fin = 0 -> exists j, (j < n)%nat /\ cb = at_ j.
Proof.
  intros C H Hn ->. induction H as [|cb H (j & Hj & ->) Z0].
  - exists O. split; [exact Hn|]. unfold MoveProofs.at_. lia.
  - unfold next_cb in *. destruct (C j Hj) as [_ E]. rewrite E in *. destruct (Nat.eqb_spec (S j) n); [congruence|].
    exists (S j). split; [lia|reflexivity].
Qed.
Lemma at_chain m n j : chain m 0 n -> (j < n)%nat -> on_chain m base (at_ j).
Proof.
  intros C. induction j as [|j IH]; intros H.
  - replace (at_ 0) with base by (unfold MoveProofs.at_; lia). constructor.
  - destruct (C j ltac:(lia)) as [_ E]. replace (Nat.eqb (S j) n) with false in E by (symmetry; apply Nat.eqb_neq; lia).
    rewrite <- E. apply chain_next; [apply IH; lia|]. unfold next_cb. rewrite E. unfold MoveProofs.at_. lia.
Qed.
End Buffer.

Section Old.
Context {N : PyNum}.
Variable h : hal_config.
Variable base size : Z.
Variable extra : bool.
Hypothesis base_ok : 0 < base.
Notation at_ := (at_ base).
Notation chain := (chain base).
Notation mstep := (mstep h base size).
Notation acts := (acts base extra).

Lemma plan_bytes k prev (it : item N) l k' p' : plan_item h k prev it = Ok (l, (k', p')) -> bytes l <= 128.
Proof.
  destruct it as [d|t]; cbn [plan_item].
  - intros E. injection E as <- _ _. cbn. lia.
  - destruct (min_time t) as [m|]; [|discriminate]. destruct (rnd _) as [z|]; [|discriminate]. cbn [rbind].
    intros E. injection E as <- _ _. destruct (_ >? _); cbn; lia.
Qed.

Variable d0 : dma.     (* the buffer with the previous program *)
Variable n : nat.
Hypothesis old : chain (d_mem d0) 0 n.
Variable full : list action.

(** The previous program is not touched where the engine may still come. *)
Definition safe (x : machine N) : Prop :=
  restarted x \/
  ((forall l p c, m_pc (x_move x) = MAdd l p -> m_cur (x_move x) = Some c -> d_addr (x_dma x) + bytes l < c) /\
   (m_pc (x_move x) = MFinal -> e_active (x_eng x) = false) /\
   (e_active (x_eng x) = false -> eff (x_done x) = eff full) /\
   (e_active (x_eng x) = true -> exists j, (j < n)%nat /\ e_cb (x_eng x) = at_ j /\ e_next (x_eng x) = d_mem d0 (at_ j + 20) /\
      (forall a, at_ j <= a < at_ n -> d_mem (x_dma x) a = d_mem d0 a) /\
      (exists c, m_cur (x_move x) = Some c /\ base + c <= at_ j) /\
      eff (x_done x) ++ eff (acts (d_mem d0) j (n - j)) = eff full)).
Definition inv (x : machine N) : Prop := 0 <= d_addr (x_dma x) /\ safe x.

Lemma enter_frame (m : mover N) it : m_cur (enter h m it) = m_cur m /\ m_ran (enter h m it) = m_ran m /\ m_pc (enter h m it) <> MFinal /\ m_pc (enter h m it) <> MDone /\
  (forall l p, m_pc (enter h m it) = MAdd l p -> bytes l <= 128).
Proof.
  unfold enter. destruct (plan_item h (m_k m) (m_prev m) it) as [[l [k p]]|e] eqn:E; cbn [m_cur m_ran m_pc goto].
  - repeat split; try discriminate. intros l' p' Q. injection Q as <- _. eapply plan_bytes, E.
  - repeat split; discriminate.
Qed.

Lemma run_addr d r loop d' : run base size d loop = (d', r) -> d_addr d' = d_addr d.
Proof.
  unfold run, finalize_stream. destruct (_ =? 0); [now intros [= <- _]|]. destruct loop, (_ && _); now intros [= <- _].
Qed.
Lemma final_addr d r d' : finalize_stream base size d = (d', r) -> d_addr d' = d_addr d.
Proof. unfold finalize_stream. destruct (_ && _); now intros [= <- _]. Qed.
Lemma add_addr_le d r : 0 <= d_addr d -> 0 <= d_addr (fst (add base size d r)).
Proof. intros H. rewrite add_addr. pose proof (bytes_pos r). destruct (snd _); lia. Qed.

Ltac same_mem :=
  let A1 := fresh in let A2 := fresh in let A3 := fresh in let A4 := fresh in
  match goal with H : safe _ |- _ => destruct H as [H|(A1 & A2 & A3 & A4)] end;
  [left; assumption|right; cbn [x_move x_dma x_eng x_done goto m_pc m_cur] in *; repeat split; auto; try (intros; discriminate)].

Lemma inv_mstep slow x : inv x -> inv (mstep slow x).
Proof.
  intros [P S]. destruct x as [m d e dn]. destruct m as [pc items en cur k prev k0 ran inst].
  assert (R: restarted {| x_move := {| m_pc := pc; m_items := items; m_end := en; m_cur := cur; m_k := k; m_prev := prev; m_k0 := k0; m_ran := ran; m_instant := inst |};
                 x_dma := d; x_eng := e; x_done := dn |} <-> ran = true \/ pc = MDone) by (unfold restarted; cbn; tauto).
  unfold safe in S. rewrite R in S. clear R. cbn [x_move x_dma x_eng x_done m_pc m_cur m_ran] in *.
  unfold inv, safe, restarted, Hal.mstep. cbn [x_move x_dma x_eng x_done m_pc m_cur m_ran m_items m_end m_k m_prev m_k0 m_instant].
  destruct pc as [|it|it|l p| | | | |ex].
  - destruct items as [|it r]; [destruct en as [ex|]; [|destruct ran]|]; cbn [x_move x_dma x_eng x_done m_pc m_cur m_ran goto]; (split; [exact P|]); try (left; left; reflexivity);
      (destruct S as [[S|S]|(S1 & S2 & S3 & S4)]; [left; auto|discriminate S|right; repeat split; auto; intros; discriminate]).
  - assert (G: forall c, cur = c -> (match c with Some c => d_addr d + 128 < c | None => True end) ->
      0 <= d_addr d /\ ((m_ran (enter h {| m_pc := MTest it; m_items := items; m_end := en; m_cur := cur; m_k := k; m_prev := prev; m_k0 := k0; m_ran := ran; m_instant := inst |} it) = true \/
       m_pc (enter h {| m_pc := MTest it; m_items := items; m_end := en; m_cur := cur; m_k := k; m_prev := prev; m_k0 := k0; m_ran := ran; m_instant := inst |} it) = MDone) \/
       safe {| x_move := enter h {| m_pc := MTest it; m_items := items; m_end := en; m_cur := cur; m_k := k; m_prev := prev; m_k0 := k0; m_ran := ran; m_instant := inst |} it; x_dma := d; x_eng := e; x_done := dn |})).
    { intros c -> G. split; [exact P|]. destruct (enter_frame {| m_pc := MTest it; m_items := items; m_end := en; m_cur := c; m_k := k; m_prev := prev; m_k0 := k0; m_ran := ran; m_instant := inst |} it) as (F1 & F2 & F3 & F4 & F5).
      destruct S as [[S|S]|(S1 & S2 & S3 & S4)]; [left; left; rewrite F2; exact S|discriminate S|right; right].
      cbn [x_move x_dma x_eng x_done]. rewrite F1. cbn [m_cur]. repeat split; auto; try congruence.
      intros l p c' E1 E2. apply F5 in E1. subst c. lia. }
    unfold safe, restarted in G. cbn [x_move x_dma x_eng x_done] in G.
    destruct cur as [c|].
    + destruct (Z.geb_spec (d_addr d + 4 * 32) c) as [L|L]; cbn [x_move x_dma x_eng x_done m_pc m_cur m_ran goto].
      * split; [exact P|]. destruct S as [[S|S]|(S1 & S2 & S3 & S4)]; [left; auto|discriminate S|right; repeat split; auto; intros; discriminate].
      * destruct (G _ eq_refl ltac:(cbn; lia)) as [G1 [G2|G2]]; (split; [exact G1|]); [now left|exact G2].
    + destruct (G _ eq_refl I) as [G1 [G2|G2]]; (split; [exact G1|]); [now left|exact G2].
  - split; [destruct (current_cb base e); exact P|]. cbn [x_move x_dma x_eng x_done].
    destruct S as [[S|S]|(S1 & S2 & S3 & S4)]; [left; left|discriminate S|right].
    { destruct (current_cb base e); cbn [m_ran]; [exact S|]. match goal with |- m_ran (enter h ?m it) = true => destruct (enter_frame m it) as (_ & F2 & _) end. rewrite F2. exact S. }
    destruct (e_active e) eqn:EA.
    + destruct (S4 eq_refl) as (j & J1 & J2 & J3 & J4 & _ & J6).
      assert (CC: current_cb base e = Some (at_ j - base)).
      { unfold current_cb. rewrite J2. unfold MoveProofs.at_. destruct (Z.eqb_spec (base + 32 * Z.of_nat j) 0); [lia|reflexivity]. }
      rewrite CC. cbn [m_pc m_cur m_ran]. repeat split; try (intros; discriminate). intros _. exists j. repeat split; auto. exists (at_ j - base). split; [reflexivity|lia].
    + destruct (current_cb base e) as [c|] eqn:CC; cbn [m_pc m_cur m_ran]; [repeat split; auto; intros; discriminate|].
      match goal with |- context [enter h ?m it] => destruct (enter_frame m it) as (F1 & F2 & F3 & F4 & F5) end.
      rewrite F1. cbn [m_cur]. repeat split; auto; intros; discriminate.
  - destruct l as [|r l].
    + cbn [x_move x_dma x_eng x_done m_pc m_cur m_ran goto]. split; [exact P|].
      destruct S as [[S|S]|(S1 & S2 & S3 & S4)]; [left; auto|discriminate S|right; destruct p; repeat split; auto; intros; discriminate].
    + pose proof (add_addr_le d r P) as P'. pose proof (fun a => add_frame base size d r a P) as F. pose proof (add_addr base size d r) as A.
      destruct (add base size d r) as [d' [u|ex]] eqn:E; cbn [fst snd] in *; cbn [x_move x_dma x_eng x_done m_pc m_cur m_ran goto]; (split; [exact P'|]);
        (destruct S as [[S|S]|(S1 & S2 & S3 & S4)]; [left; auto|discriminate S|right]).
      * repeat split; auto; try (intros; discriminate).
        -- intros l' p' c E1 E2. injection E1 as <- <-. pose proof (S1 _ _ _ eq_refl E2) as B. rewrite bytes_cons in B. lia.
        -- intros EA. destruct (S4 EA) as (j & J1 & J2 & J3 & J4 & (c & J5 & J5') & J6). exists j. repeat split; auto; [|eauto].
           intros a Ha. rewrite F; [now apply J4|]. right; left. pose proof (S1 _ _ _ eq_refl J5) as B. rewrite bytes_cons in B. pose proof (bytes_nonneg l). lia.
      * repeat split; auto; try (intros; discriminate).
        intros EA. destruct (S4 EA) as (j & J1 & J2 & J3 & J4 & (c & J5 & J5') & J6). exists j. repeat split; auto; [|eauto].
        intros a Ha. rewrite F; [now apply J4|]. right; left. pose proof (S1 _ _ _ eq_refl J5) as B. rewrite bytes_cons in B. pose proof (bytes_nonneg l). lia.
  - destruct cur as [c|]; [|destruct (negb ran && inst && (k - k0 >? 100000)); [destruct slow|]]; cbn [x_move x_dma x_eng x_done m_pc m_cur m_ran goto]; (split; [exact P|]);
      try (left; left; reflexivity);
      (destruct S as [[S|S]|(S1 & S2 & S3 & S4)]; [left; auto|discriminate S|right; repeat split; auto; intros; discriminate]).
  - destruct (e_active e) eqn:EA; cbn [x_move x_dma x_eng x_done m_pc m_cur m_ran goto]; (split; [exact P|]); rewrite ?EA.
    + destruct S as [[S|S]|(S1 & S2 & S3 & S4)]; [left; auto|discriminate S|right; repeat split; auto; intros; discriminate].
    + destruct S as [[S|S]|(S1 & S2 & S3 & S4)]; [left; auto|discriminate S|right; repeat split; auto; intros; discriminate].
  - destruct ran.
    + destruct (finalize_stream base size d) as [d' [u|ex]] eqn:E; cbn [x_move x_dma x_eng x_done m_pc m_cur m_ran goto]; rewrite (final_addr _ _ _ E); (split; [exact P|]); left; left; reflexivity.
    + destruct (run base size d false) as [d' [u|ex]] eqn:E; cbn [x_move x_dma x_eng x_done m_pc m_cur m_ran goto]; rewrite (run_addr _ _ _ _ E); (split; [exact P|]).
      * left; right; reflexivity.
      * destruct S as [[S|S]|(S1 & S2 & S3 & S4)]; [left; auto|discriminate S|right]. specialize (S2 eq_refl). repeat split; auto; try (intros; discriminate). intros EA. congruence.
  - cbn [x_move x_dma x_eng x_done m_pc m_cur m_ran goto]. split; [exact P|]. left; right; reflexivity.
  - cbn [x_move x_dma x_eng x_done m_pc m_cur m_ran goto]. split; [exact P|].
    destruct S as [[S|S]|(S1 & S2 & S3 & S4)]; [left; auto|discriminate S|right; repeat split; auto; intros; discriminate].
Qed.

Lemma acts_S m j k : acts m j (S k) = transfer extra m (at_ j) ++ acts m (S j) k.
Proof. reflexivity. Qed.

Lemma inv_dstep x : inv x -> inv (dstep extra x).
Proof.
  intros [P S]. split; [exact P|]. destruct S as [S|(S1 & S2 & S3 & S4)]; [left; exact S|right].
  unfold dstep. cbn [x_move x_dma x_eng x_done]. unfold advance, performed. destruct (e_active (x_eng x)) eqn:EA.
  - destruct (S4 eq_refl) as (j & J1 & J2 & J3 & J4 & J5 & J6). destruct (old j J1) as [B E].
    assert (T: eff (transfer extra (d_mem (x_dma x)) (e_cb (x_eng x))) = eff (transfer extra (d_mem d0) (at_ j))).
    { rewrite J2. apply block_local; [exact B|]. intros a Ha _. apply J4. unfold MoveProofs.at_ in *. lia. }
    rewrite J3, E. replace (n - j)%nat with (S (n - S j)) in J6 by lia. rewrite acts_S, eff_app in J6.
    destruct (Nat.eqb_spec (S j) n) as [L|L].
    + cbn [Z.eqb e_active stopped]. repeat split; auto; try (intros; discriminate).
      intros _. rewrite eff_app, T. replace (n - S j)%nat with O in J6 by lia. cbn in J6. rewrite app_nil_r in J6. exact J6.
    + destruct (Z.eqb_spec (at_ (S j)) 0) as [E0|_]; [unfold MoveProofs.at_ in E0; lia|]. cbn [e_active e_cb e_next]. repeat split; auto; try (intros; discriminate).
      * intros _. exists (S j). repeat split; [lia| | | |].
        -- unfold next_cb. apply J4. unfold MoveProofs.at_. lia.
        -- intros a Ha. apply J4. unfold MoveProofs.at_ in *. lia.
        -- destruct J5 as (c & C1 & C2). exists c. split; [exact C1|]. unfold MoveProofs.at_ in *. lia.
        -- rewrite eff_app, T, <- app_assoc. exact J6.
  - rewrite app_nil_r, EA. repeat split; auto.
Qed.

Lemma inv_reach x y : inv x -> reach h base size extra x y -> inv y.
Proof. intros I R. induction R as [|y z R IH S]; [exact I|]. destruct S; [now apply inv_mstep|now apply inv_dstep]. Qed.
End Old.

Section OldProgram.
Context {N : PyNum}.
Variable h : hal_config.
Variable base size : Z.
Variable extra : bool.
Hypothesis base_ok : 0 < base.

Lemma playing_at m e n : chain base m 0 n -> (0 < n)%nat -> playing base m e ->
  e = stopped \/ exists j, (j < n)%nat /\ e_active e = true /\ e_cb e = at_ base j /\ e_next e = m (at_ base j + 20).
Proof.
  intros C L [->|(A & O & E)]; [left; reflexivity|right]. destruct (chain_at base m 0 n _ C O L eq_refl) as (j & J & K).
  exists j. rewrite E, K. unfold next_cb. auto.
Qed.
Lemma begin_inv d old (g : list (item N)) ex e n full : loaded base size d old -> blocks old = S n -> chain base (d_mem d) 0 (S n) -> playing base (d_mem d) e ->
  remains extra (d_mem d) e full -> inv base extra d (S n) full (begin_move h g ex d e).
Proof.
  intros L B C P R. split; [cbn; lia|]. right. cbn [begin_move x_move x_dma x_eng x_done move_start m_pc m_cur clear d_addr d_mem].
  split; [discriminate|]. split; [discriminate|]. unfold remains in R. destruct (playing_at _ _ _ C ltac:(lia) P) as [->|(j & J1 & J2 & J3 & J4)].
  - cbn [e_active stopped] in *. subst full. split; [reflexivity|discriminate].
  - rewrite J2 in R. split; [congruence|]. intros _. exists j. repeat split; auto.
    + exists 0. split; [reflexivity|]. unfold at_. lia.
    + rewrite J3 in R. assert (Q: plays extra (d_mem d) (at_ base j) (acts base extra (d_mem d) j (S n - j))).
      { replace (S n - j)%nat with (S (n - j)) by lia. eapply chain_plays; [exact base_ok|exact C|lia]. }
      cbn [app eff filter]. rewrite (plays_det _ _ _ _ Q _ R). reflexivity.
Qed.

(** Nothing is written where the engine can still come. *)
Lemma move_untouched d old (g : list (item N)) ex e x : loaded base size d old -> playing base (d_mem d) e ->
  reach h base size extra (begin_move h g ex d e) x -> ~ restarted x -> e_active (x_eng x) = true ->
  e_cb (x_eng x) < base + bytes old /\ forall a, e_cb (x_eng x) <= a < base + bytes old -> d_mem (x_dma x) a = d_mem d a.
Proof.
  intros L P R NR EA. destruct (loaded_chain base size d old L) as (n & B & A & F & C).
  assert (EX: exists full, remains extra (d_mem d) e full).
  { unfold remains. destruct (playing_at _ _ _ C ltac:(lia) P) as [->|(j & J1 & J2 & J3 & J4)]; [exists []; reflexivity|].
    rewrite J2, J3. eexists. replace (S n)%nat with (j + S (n - j))%nat in C by lia. eapply chain_plays; [exact base_ok|exact C|reflexivity]. }
  destruct EX as [full RM]. pose proof (begin_inv d old g ex e n full L B C P RM) as I.
  pose proof (inv_reach h base size extra base_ok d (S n) C full _ _ I R) as [_ [S|(_ & _ & _ & S)]]; [contradiction|].
  destruct (S EA) as (j & J1 & J2 & _ & J4 & _). rewrite J2. rewrite bytes_blocks_l, B. split; [unfold at_; lia|].
  intros a Ha. apply J4. unfold at_ in *. lia.
Qed.
(** It plays the old program to its end. *)
Lemma move_old_plays d old (g : list (item N)) ex e x full : loaded base size d old -> playing base (d_mem d) e ->
  remains extra (d_mem d) e full -> reach h base size extra (begin_move h g ex d e) x -> ~ restarted x ->
  exists rest, remains extra (d_mem d) (x_eng x) rest /\ forall t, seen t (x_done x ++ rest) = seen t full.
Proof.
  intros L P RM R NR. destruct (loaded_chain base size d old L) as (n & B & A & F & C).
  pose proof (begin_inv d old g ex e n full L B C P RM) as I.
  pose proof (inv_reach h base size extra base_ok d (S n) C full _ _ I R) as [_ [S|(_ & _ & S3 & S4)]]; [contradiction|].
  unfold remains. destruct (e_active (x_eng x)) eqn:EA.
  - destruct (S4 eq_refl) as (j & J1 & J2 & _ & _ & _ & J6). exists (acts base extra (d_mem d) j (S n - j)). split.
    + rewrite J2. replace (S n - j)%nat with (S (n - j)) by lia. eapply chain_plays; [exact base_ok|exact C|lia].
    + intros t. rewrite <- seen_eff, eff_app, J6, seen_eff. reflexivity.
  - exists []. split; [reflexivity|]. intros t. rewrite app_nil_r, <- seen_eff, S3, seen_eff by reflexivity. reflexivity.
Qed.
End OldProgram.
