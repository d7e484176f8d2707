(** Executions of the PWM with two threads, and with an engine that is slow to write. *)
From Coq Require Import ZArith Bool Lia List.
From Verif Require Import PyBase PyNum Dma DmaGpio DmaSpec DmaGpioProofs Gpio GpioProofs Pwm PwmSpec PwmProofs.
Import ListNotations.
Local Open Scope Z_scope.

Definition blank : gpio := {| g_fsel := fun _ => 0; g_latch := fun _ => false; g_pull := fun _ => 0; g_pud := 0 |}.

(** A pin that is high and has no clear bit stays high. *)
Lemma stuck base s p : 0 < base /\ base + 8192 < 2 ^ 32 -> 0 <= p < 32 ->
  ctrl base (w_mem s) -> eng_ok base (w_eng s) -> high s p = true -> (forall i, 1 <= i < 256 -> bit base (w_mem s) i p = false) ->
  forall n, high (later n s) p = true.
Proof.
  intros B Hp C E H K. assert (G: forall n, ctrl base (w_mem (later n s)) /\ eng_ok base (w_eng (later n s)) /\ w_mem (later n s) = w_mem s /\ high (later n s) p = true).
  { induction n as [|n (C' & E' & M & L)]; [auto|]. rewrite later_S. split; [exact C'|]. split; [now apply advance_ok|]. split; [exact M|].
    rewrite (estep_latch base _ p C' E' Hp), L, M. destruct (e_active _) eqn:A; [|reflexivity].
    destruct (E' A) as (i & Hi & E1 & _). rewrite E1. destruct (Z.eqb_spec (blk base i) base) as [X|X]; [reflexivity|].
    replace (blk base i - base) with (i * 32) by (unfold blk; lia). rewrite Z.div_mul by lia. rewrite K; [reflexivity|]. unfold blk in X. lia. }
  intros n. apply G.
Qed.

(** The control words and the data, checked by computation. *)
Definition indices : list Z := map Z.of_nat (seq 0 256).
Lemma indices_in i : 0 <= i < 256 -> In i indices.
Proof. intros H. unfold indices. apply in_map_iff. exists (Z.to_nat i). split; [lia|]. apply in_seq. lia. Qed.
Fixpoint holdsb (m : mem) (a : Z) (l : list Z) : bool :=
  match l with [] => true | v :: r => (m a =? v) && holdsb m (a + 4) r end.
Lemma holdsb_ok m l : forall a, holdsb m a l = true -> holds m a l.
Proof. induction l as [|v l IH]; intros a H; [exact I|]. cbn in *. apply andb_prop in H. destruct H as [H1 H2]. apply Z.eqb_eq in H1. auto. Qed.
Definition ctrlb (base : Z) (m : mem) : bool :=
  forallb (fun i => holdsb m (blk base i) [pwm_info; blk base i + 24; gpio_bus + (if i =? 0 then 28 else 40); 4; 0; blk base (succ i)]) indices.
Lemma ctrlb_ok base m : ctrlb base m = true -> ctrl base m.
Proof. intros H i Hi. unfold ctrlb in H. rewrite forallb_forall in H. apply holdsb_ok, H, indices_in, Hi. Qed.
Definition no_clearb (base : Z) (m : mem) (p : Z) : bool :=
  forallb (fun i => (i =? 0) || negb (bit base m i p)) indices.
Lemma no_clearb_ok base m p : no_clearb base m p = true -> forall i, 1 <= i < 256 -> bit base m i p = false.
Proof.
  intros H i Hi. unfold no_clearb in H. rewrite forallb_forall in H. specialize (H i (indices_in i ltac:(lia))).
  destruct (Z.eqb_spec i 0); [lia|]. cbn in H. now destruct (bit base m i p).
Qed.
Definition eng_okb (base : Z) (e : engine) : bool :=
  existsb (fun i => (e_cb e =? blk base i) && (e_next e =? blk base (succ i))) indices.
Lemma eng_okb_ok base e : eng_okb base e = true -> eng_ok base e.
Proof.
  intros H _. unfold eng_okb in H. apply existsb_exists in H. destruct H as (i & Hi & H). apply andb_prop in H. destruct H as [H1 H2].
  exists i. unfold indices in Hi. apply in_map_iff in Hi. destruct Hi as (k & <- & Hk). apply in_seq in Hk. split; [lia|]. split; now apply Z.eqb_eq.
Qed.

Section Two.
Context {N : PyNum}.
Variable d50 : N.
Hypothesis d50_ok : block_number d50 = Ok 128.

(** Who acts. *)
Inductive who : Type := T1 | T2 | En.
Definition act (x : shared * pc * pc) (i : who) : shared * pc * pc :=
  let '(s, t1, t2) := x in
  match i with
  | T1 => (fst (tstep 4096 s t1), snd (tstep 4096 s t1), t2)
  | T2 => (fst (tstep 4096 s t2), t1, snd (tstep 4096 s t2))
  | En => (estep s, t1, t2)
  end.
Definition sh (x : shared * pc * pc) : shared := fst (fst x).
Definition p1 (x : shared * pc * pc) : pc := snd (fst x).
Definition p2 (x : shared * pc * pc) : pc := snd x.
Lemma runs2_act (h : list (call N)) l : forall x, runs2 4096 h (sh x) (p1 x) (p2 x) ->
  runs2 4096 h (sh (fold_left act l x)) (p1 (fold_left act l x)) (p2 (fold_left act l x)).
Proof.
  induction l as [|i l IH]; intros x H; [exact H|]. cbn [fold_left]. apply IH. destruct x as [[s t1] t2]. cbn in H.
  destruct i; cbn; [now apply runs2_thread1|now apply runs2_thread2|now apply runs2_engine].
Qed.

(** Pin 18 runs at half power. *)
Definition r0 : shared * pc * pc := (pwm0 4096 (fun _ => 0) blank, Done, Done).
Definition r1 := fold_left act (repeat T1 20) (sh r0, RemTest 18 (Some 128), Done).
(** The first thread removes pin 18 while the second adds pin 22: the second has read the
    set word before the first clears it, and writes it back after. *)
Definition r2 := fold_left act (repeat T2 4) (sh r1, RemTest 18 None, RemTest 22 (Some 128)).
Definition r3 := fold_left act (repeat T1 20 ++ repeat T2 20 ++ [En]) r2.
Definition race_calls : list (call N) := [CallAdd 22 d50; CallRemove 18; CallAdd 18 d50].

Lemma race_runs : runs2 4096 race_calls (sh r3) Done Done.
Proof.
  assert (A1: runs2 4096 [CallAdd 18 d50] (sh r1) (p1 r1) (p2 r1)).
  { unfold r1. apply runs2_act. cbn [sh p1 p2 fst snd]. apply runs2_call1.
    - apply runs2_init. reflexivity.
    - constructor; [lia|exact d50_ok]. }
  assert (A2: runs2 4096 race_calls (sh r1) (RemTest 18 None) (RemTest 22 (Some 128))).
  { apply runs2_call2; [|constructor; [lia|exact d50_ok]]. apply runs2_call1; [|constructor; lia].
    assert (E1: p1 r1 = Done) by (vm_compute; reflexivity). assert (E2: p2 r1 = Done) by (vm_compute; reflexivity). rewrite E1, E2 in A1. exact A1. }
  assert (A3: runs2 4096 race_calls (sh r3) (p1 r3) (p2 r3)).
  { unfold r3. apply runs2_act. unfold r2. apply runs2_act. exact A2. }
  assert (E1: p1 r3 = Done) by (vm_compute; reflexivity). assert (E2: p2 r3 = Done) by (vm_compute; reflexivity). rewrite E1, E2 in A3. exact A3.
Qed.
Lemma race_high : forall n, high (later n (sh r3)) 18 = true.
Proof.
  apply (stuck 4096); [lia|lia|apply ctrlb_ok; vm_compute; reflexivity|apply eng_okb_ok; vm_compute; reflexivity|vm_compute; reflexivity|].
  apply no_clearb_ok. vm_compute. reflexivity.
Qed.

(** The slow engine: pins 18 and 22 run; the engine has read the set word, pin 18 is
    removed, the engine writes. *)
Definition tacts (n : nat) (x : shared * pc) : shared * pc := Nat.iter n (fun x => tstep 4096 (fst x) (snd x)) x.
Lemma split_tacts (h : list (call N)) n : forall x q, runs_split 4096 h (fst x) (snd x) q -> runs_split 4096 h (fst (tacts n x)) (snd (tacts n x)) q.
Proof. induction n as [|n IH]; intros x q H; [exact H|]. change (tacts (S n) x) with (tstep 4096 (fst (tacts n x)) (snd (tacts n x))). apply rsp_thread. now apply IH. Qed.
Definition q0 : shared * pc := tacts 20 (pwm0 4096 (fun _ => 0) blank, RemTest 18 (Some 128)).
Definition q1 : shared * pc := tacts 20 (fst q0, RemTest 22 (Some 128)).
Definition q2 : shared := set_eng (fst q1) (advance (w_mem (fst q1)) (w_eng (fst q1))).
Definition q_read : list action := performed false (w_mem (fst q1)) (w_eng (fst q1)).
Definition q3 : shared * pc := tacts 20 (q2, RemTest 18 None).
Definition q4 : shared := set_gpio (fst q3) (apply_actions (w_gpio (fst q3)) q_read).
Definition slow_calls : list (call N) := [CallRemove 18; CallAdd 22 d50; CallAdd 18 d50].
Lemma slow_runs : runs_split 4096 slow_calls q4 Done [].
Proof.
  assert (A0: runs_split 4096 [CallAdd 18 d50] (fst q0) (snd q0) []).
  { unfold q0. apply split_tacts. cbn [fst snd]. apply rsp_call; [now apply rsp_init|]. constructor; [lia|exact d50_ok]. }
  assert (E0: snd q0 = Done) by (vm_compute; reflexivity). rewrite E0 in A0.
  assert (A1: runs_split 4096 [CallAdd 22 d50; CallAdd 18 d50] (fst q1) (snd q1) []).
  { unfold q1. apply split_tacts. cbn [fst snd]. apply rsp_call; [exact A0|]. constructor; [lia|exact d50_ok]. }
  assert (E1: snd q1 = Done) by (vm_compute; reflexivity). rewrite E1 in A1.
  assert (A2: runs_split 4096 [CallAdd 22 d50; CallAdd 18 d50] q2 Done q_read) by exact (rsp_read _ _ _ _ A1).
  assert (A3: runs_split 4096 slow_calls (fst q3) (snd q3) q_read).
  { unfold q3. apply split_tacts. cbn [fst snd]. apply rsp_call; [exact A2|]. constructor. lia. }
  assert (E3: snd q3 = Done) by (vm_compute; reflexivity). rewrite E3 in A3. exact (rsp_write _ _ _ _ _ A3).
Qed.
Lemma slow_high : forall n, high (later n q4) 18 = true.
Proof.
  apply (stuck 4096); [lia|lia|apply ctrlb_ok; vm_compute; reflexivity|apply eng_okb_ok; vm_compute; reflexivity|vm_compute; reflexivity|].
  apply no_clearb_ok. vm_compute. reflexivity.
Qed.
End Two.
