(** Proofs about Watchdog.v. *)
From Coq Require Import ZArith Bool Lia List.
From Verif Require Import PyBase Dma DmaGpio DmaSpec DmaGpioProofs Gpio GpioProofs Watchdog.
Import ListNotations.
Local Open Scope Z_scope.

(** Fed in time: never more than 2046 completed blocks without a feed; [n] so far. *)
Fixpoint fed (n : Z) (l : list op) : Prop :=
  match l with
  | [] => True
  | Tick :: r => n + 1 <= 2046 /\ fed (n + 1) r
  | Feed :: r => fed 0 r
  | Use _ _ :: r => fed n r
  end.
(** Completed blocks; and no feed at all. *)
Fixpoint ticks (l : list op) : Z := match l with [] => 0 | Tick :: r => 1 + ticks r | _ :: r => ticks r end.
Fixpoint unfed (l : list op) : Prop := match l with [] => True | Feed :: _ => False | _ :: r => unfed r end.

Section Wd.
Variable base : Z.
Hypothesis base_ok : 0 < base /\ base + 65536 < 2 ^ 32.
Variable m0 : mem.
Let m := wd_memory base m0.

Definition at_ (i : Z) : Z := base + 32 * i.
Definition natural (i : Z) : Z := if i =? 2047 then 0 else at_ (i + 1).

Lemma data_ok n : forall ba, 0 < ba -> ba + 32 * (Z.of_nat n + 1) < 2 ^ 32 -> Forall (fun v => 0 <= v < 2 ^ 32) (wd_data ba n).
Proof.
  assert (0 <= wait_info < 2 ^ 32) by (cbv; split; [discriminate|reflexivity]).
  assert (0 <= off_info < 2 ^ 32) by (cbv; split; [discriminate|reflexivity]).
  assert (gpio_bus = 2116026368) by reflexivity.
  induction n as [|n IH]; intros ba Hb1 Hb2; cbn [wd_data app].
  - repeat (apply Forall_cons; [lia|]). apply Forall_nil.
  - repeat (apply Forall_cons; [lia|]). apply IH; lia.
Qed.
Lemma data_block n : forall mm ba i, holds mm ba (wd_data ba n) -> 0 <= i <= Z.of_nat n ->
  let a := ba + 32 * i in
  holds mm a (if i =? Z.of_nat n then [off_info; a + 24; gpio_bus + 0; 12; 0; 0; 0; 0] else [wait_info; a + 24; a + 28; 65535; 0; a + 32; 0; 0]).
Proof.
  induction n as [|n IH]; intros mm ba i H Hi a.
  - assert (i = 0) by lia. subst i. unfold a. rewrite Z.add_0_r. exact H.
  - cbn [wd_data] in H. apply holds_app in H. destruct H as [H1 H2]. change (4 * Z.of_nat (length _)) with 32 in H2.
    destruct (Z.eq_dec i 0) as [->|D].
    + unfold a. rewrite Z.add_0_r. destruct (Z.eqb_spec 0 (Z.of_nat (S n))); [lia|]. exact H1.
    + specialize (IH mm (ba + 32) (i - 1) H2 ltac:(lia)). cbv zeta in IH. replace (ba + 32 + 32 * (i - 1)) with a in IH by (unfold a; lia).
      replace (i =? Z.of_nat (S n)) with (i - 1 =? Z.of_nat n); [exact IH|]. destruct (Z.eqb_spec (i - 1) (Z.of_nat n)), (Z.eqb_spec i (Z.of_nat (S n))); lia.
Qed.
Lemma wd_block i : 0 <= i <= 2047 ->
  transfer false m (at_ i) = (if i =? 2047 then [Store gpio_bus 0; Store (gpio_bus + 4) 0; Store (gpio_bus + 8) 0] else [Ignored 65535]) /\
  next_cb m (at_ i) = natural i.
Proof.
  intros Hi. unfold m, wd_memory. destruct (pack_ok _ m0 base (data_ok 2047 base ltac:(lia) ltac:(lia))) as [_ H].
  pose proof (data_block 2047 _ _ i H ltac:(lia)) as K. cbv zeta in K. fold (at_ i) in K. change (Z.of_nat 2047) with 2047 in K.
  set (mm := fst (pack m0 base (wd_data base 2047))) in *. clearbody mm. unfold natural. destruct (Z.eqb_spec i 2047) as [->|D].
  - set (a := at_ 2047) in *. clearbody a. cbn [holds] in K. destruct K as (H0 & H1 & H2 & H3 & H4 & H5 & H6 & _).
    replace (a + 4 + 4) with (a + 8) in * by lia. replace (a + 8 + 4) with (a + 12) in * by lia.
    replace (a + 12 + 4) with (a + 16) in * by lia. replace (a + 16 + 4) with (a + 20) in * by lia. replace (a + 20 + 4) with (a + 24) in * by lia.
    split; [|exact H5]. unfold transfer. rewrite H0, H1, H2, H3.
    change (words (12 mod 2 ^ 30)) with 3%nat.
    change (Z.testbit off_info 7) with false. change (Z.testbit off_info 6) with false. change (Z.testbit off_info 1) with false.
    change (Z.testbit off_info 8) with false. change (Z.testbit off_info 4) with true. cbn [row]. rewrite H6.
    replace (gpio_bus + 0) with gpio_bus by lia. replace (gpio_bus + 4 + 4) with (gpio_bus + 8) by lia. reflexivity.
  - replace (at_ (i + 1)) with (at_ i + 32) by (unfold at_; lia). set (a := at_ i) in *. clearbody a. cbn [holds] in K. destruct K as (H0 & H1 & H2 & H3 & H4 & H5 & H6 & _).
    replace (a + 4 + 4) with (a + 8) in * by lia. replace (a + 8 + 4) with (a + 12) in * by lia.
    replace (a + 12 + 4) with (a + 16) in * by lia. replace (a + 16 + 4) with (a + 20) in * by lia.
    split; [|exact H5]. unfold transfer. rewrite H0, H3. change (Z.testbit wait_info 7) with true. reflexivity.
Qed.

(** The engine: at block i, to go on to the next or, after a feed, to the first block. *)
Definition sits (e : engine) (i : Z) (again : bool) : Prop :=
  e_active e = true /\ 0 <= i <= 2047 /\ e_cb e = at_ i /\ e_next e = if again then base else natural i.
Lemma sits_start : sits (run_dma m base) 0 false.
Proof.
  unfold run_dma. split; [reflexivity|]. split; [lia|]. cbn. split; [unfold at_; lia|]. replace base with (at_ 0) at 1 by (unfold at_; lia). apply wd_block. lia.
Qed.
Lemma sits_feed e i a : sits e i a -> sits (feed base e) i true.
Proof. intros (A & B & C & D). unfold feed. rewrite A. repeat split; cbn; try tauto; lia. Qed.
Lemma sits_tick e i a : sits e i a -> (a = true -> sits (advance m e) 0 false) /\ (a = false -> i < 2047 -> sits (advance m e) (i + 1) false) /\
  (a = false -> i = 2047 -> advance m e = stopped).
Proof.
  intros (A & B & C & D). unfold advance. rewrite A. split; [|split].
  - intros ->. rewrite D. destruct (Z.eqb_spec base 0); [lia|]. exact sits_start.
  - intros -> Hi. rewrite D. unfold natural. destruct (Z.eqb_spec i 2047); [lia|]. destruct (Z.eqb_spec (at_ (i + 1)) 0); [unfold at_ in *; lia|].
    split; [reflexivity|]. split; [lia|]. split; [reflexivity|]. cbn. apply wd_block. lia.
  - intros -> ->. rewrite D. reflexivity.
Qed.
Lemma sits_performed e i a : sits e i a -> performed false m e = if i =? 2047 then [Store gpio_bus 0; Store (gpio_bus + 4) 0; Store (gpio_bus + 8) 0] else [Ignored 65535].
Proof. intros (A & B & C & D). unfold performed. rewrite A, C. apply wd_block. exact B. Qed.

(** Registers other than function select leave the functions alone. *)
Lemma use_fsel g off v : off <? 24 = false -> g_fsel (reg_write g off v) = g_fsel g.
Proof.
  intros H. unfold reg_write. rewrite H, andb_false_r.
  repeat match goal with |- context [if ?b then _ else _] => destruct b; try reflexivity end.
Qed.
Lemma off_functions g p : 0 <= p < 30 -> function_of (apply_actions g [Store gpio_bus 0; Store (gpio_bus + 4) 0; Store (gpio_bus + 8) 0]) p = 0.
Proof.
  intros Hp. unfold function_of, apply_actions. cbn [fold_left apply_action].
  replace (gpio_bus - gpio_bus) with 0 by lia. replace (gpio_bus + 4 - gpio_bus) with 4 by lia. replace (gpio_bus + 8 - gpio_bus) with 8 by lia.
  change (reg_write (reg_write (reg_write g 0 0) 4 0) 8 0) with
    {| g_fsel := fun j => if j =? 2 then 0 else if j =? 1 then 0 else if j =? 0 then 0 else g_fsel g j; g_latch := g_latch g; g_pull := g_pull g; g_pud := g_pud g |}.
  cbn [g_fsel]. assert (C: p / 10 = 0 \/ p / 10 = 1 \/ p / 10 = 2).
  { assert (0 <= p / 10 < 3) by (split; [apply Z.div_pos; lia|apply Z.div_lt_upper_bound; lia]). lia. }
  pose proof (Z.mod_pos_bound p 10 ltac:(lia)). destruct C as [-> | [-> | ->]]; cbn [Z.eqb Pos.eqb]; now rewrite Z.div_0_l by (apply Z.pow_nonzero; lia).
Qed.

(** Fed in time. *)
Lemma fed_quiet l : forall x n i a, sits (x_eng x) i a -> 0 <= n -> (if a then i <= 2046 /\ n = 0 else i <= n <= 2046) -> fed n l ->
  e_active (x_eng (fold_left (op_step base m) l x)) = true /\ g_fsel (x_gpio (fold_left (op_step base m) l x)) = g_fsel (x_gpio x).
Proof.
  induction l as [|o l IH]; intros x n i a S Hn Hi F; [cbn; split; [apply S|reflexivity]|]. cbn [fold_left].
  destruct o as [| |off v]; cbn [fed] in F.
  - destruct F as [F1 F2]. pose proof (sits_performed _ _ _ S) as P. pose proof (sits_tick _ _ _ S) as (T1 & T2 & _).
    assert (Hi': i <> 2047) by (destruct a; lia).
    assert (Fs: g_fsel (x_gpio (op_step base m x Tick)) = g_fsel (x_gpio x)).
    { cbn [op_step x_gpio]. rewrite P. destruct (Z.eqb_spec i 2047); [lia|]. reflexivity. }
    rewrite <- Fs. destruct a.
    + apply (IH _ (n + 1) 0 false); [exact (T1 eq_refl)|lia|lia|exact F2].
    + apply (IH _ (n + 1) (i + 1) false); [apply (T2 eq_refl); lia|lia|lia|exact F2].
  - change (g_fsel (x_gpio x)) with (g_fsel (x_gpio (op_step base m x Feed))).
    apply (IH _ 0 i true); [exact (sits_feed _ _ _ S)|lia|destruct a; lia|exact F].
  - assert (Fs: g_fsel (x_gpio (op_step base m x (Use off v))) = g_fsel (x_gpio x)).
    { cbn [op_step x_gpio]. destruct (off <? 24) eqn:E; [reflexivity|]. now apply use_fsel. }
    rewrite <- Fs. apply (IH _ n i a); assumption.
Qed.

(** Not fed: [left] blocks to go until the last one has been executed. *)
Definition to_go (e : engine) (k : Z) : Prop := exists i a, sits e i a /\ k = if a then (if i =? 2047 then 1 else 2049) else 2048 - i.
Definition dead (x : world) : Prop := e_active (x_eng x) = false /\ forall p, 0 <= p < 30 -> function_of (x_gpio x) p = 0.

(** Every state reached: the channel is somewhere in the ring or has stopped, and then
    the pins are inputs. *)
Lemma reached l : forall x, (exists i a, sits (x_eng x) i a) \/ dead x ->
  (exists i a, sits (x_eng (fold_left (op_step base m) l x)) i a) \/ dead (fold_left (op_step base m) l x).
Proof.
  induction l as [|o l IH]; intros x H; [exact H|]. cbn [fold_left]. apply IH. destruct H as [(i & a & S)|[D F]].
  - destruct o as [| |off v].
    + pose proof (sits_tick _ _ _ S) as (T1 & T2 & T3). pose proof (sits_performed _ _ _ S) as P. destruct a; [left; exists 0, false; auto|].
      pose proof S as (_ & Hi & _). destruct (Z.eq_dec i 2047) as [->|N]; [|left; exists (i + 1), false; apply T2; [reflexivity|lia]].
      right. split; [cbn [op_step x_eng]; now rewrite T3|]. intros p Hp. cbn [op_step x_gpio]. rewrite P. cbn [Z.eqb Pos.eqb]. now apply off_functions.
    + left. exists i, true. exact (sits_feed _ _ _ S).
    + left. exists i, a. exact S.
  - right. destruct o as [| |off v]; cbn [op_step].
    + unfold advance, performed. split; cbn [x_eng x_gpio]; rewrite D; [exact D|]. exact F.
    + split; cbn [x_eng x_gpio]; [unfold feed; now rewrite D|exact F].
    + split; cbn [x_eng x_gpio]; [exact D|]. destruct (off <? 24) eqn:E; [exact F|]. intros p Hp. unfold function_of. rewrite use_fsel by exact E. exact (F p Hp).
Qed.
Lemma dead_stays l x : dead x -> dead (fold_left (op_step base m) l x).
Proof.
  revert x. induction l as [|o l IH]; intros x [D F]; [split; auto|]. cbn [fold_left]. apply IH. destruct o as [| |off v]; cbn [op_step].
  - unfold advance, performed. split; cbn [x_eng x_gpio]; rewrite D; [exact D|]. exact F.
  - split; cbn [x_eng x_gpio]; [unfold feed; now rewrite D|exact F].
  - split; cbn [x_eng x_gpio]; [exact D|]. destruct (off <? 24) eqn:E; [exact F|]. intros p Hp. unfold function_of. rewrite use_fsel by exact E. exact (F p Hp).
Qed.
Lemma unfed_plain l : forall x i, sits (x_eng x) i false -> unfed l -> 2048 - i <= ticks l -> dead (fold_left (op_step base m) l x).
Proof.
  induction l as [|o l IH]; intros x i S U T.
  - cbn [ticks] in T. pose proof S as (_ & Hi & _). lia.
  - cbn [fold_left]. destruct o as [| |off v]; cbn [unfed ticks] in *; [|contradiction|].
    + pose proof (sits_tick _ _ _ S) as (_ & T2 & T3). pose proof (sits_performed _ _ _ S) as P. pose proof S as (_ & Hi & _).
      destruct (Z.eq_dec i 2047) as [->|N].
      * apply dead_stays. split; [cbn [op_step x_eng]; now rewrite T3|]. intros p Hp. cbn [op_step x_gpio]. rewrite P. cbn [Z.eqb Pos.eqb]. now apply off_functions.
      * apply (IH _ (i + 1)); [apply T2; [reflexivity|lia]|exact U|lia].
    + apply (IH _ i); [exact S|exact U|exact T].
Qed.
Lemma unfed_dead l x i a : sits (x_eng x) i a -> unfed l -> 2049 <= ticks l -> dead (fold_left (op_step base m) l x).
Proof.
  intros S U T. destruct a; [|pose proof S as (_ & Hi & _); apply (unfed_plain l x i); [exact S|exact U|lia]].
  revert x S U T. induction l as [|o l IH]; intros x S U T; [cbn [ticks] in T; lia|]. cbn [fold_left].
  destruct o as [| |off v]; cbn [unfed ticks] in *; [|contradiction|].
  - pose proof (sits_tick _ _ _ S) as (T1 & _). apply (unfed_plain l _ 0); [now apply T1|exact U|lia].
  - apply IH; [exact S|exact U|exact T].
Qed.

(** The statements for executions from the start. *)
Lemma watchdog_quiet g l : fed 0 l -> e_active (x_eng (after_ops base m g l)) = true /\ forall p, function_of (x_gpio (after_ops base m g l)) p = function_of g p.
Proof.
  intros F. destruct (fed_quiet l {| x_eng := run_dma m base; x_gpio := g |} 0 0 false sits_start) as [A B]; [lia|lia|exact F|].
  split; [exact A|]. intros p. unfold function_of, after_ops. rewrite B. reflexivity.
Qed.
Lemma watchdog_bites g l1 l2 : unfed l2 -> 2049 <= ticks l2 ->
  forall p, 0 <= p < 30 -> function_of (x_gpio (after_ops base m g (l1 ++ l2))) p = 0.
Proof.
  intros U T. unfold after_ops. rewrite fold_left_app.
  destruct (reached l1 {| x_eng := run_dma m base; x_gpio := g |}) as [(i & a & S)|D].
  { left. exists 0, false. exact sits_start. }
  - exact (proj2 (unfed_dead l2 _ i a S U T)).
  - exact (proj2 (dead_stays l2 _ D)).
Qed.
Lemma watchdog_first g l : unfed l -> 2048 <= ticks l ->
  forall p, 0 <= p < 30 -> function_of (x_gpio (after_ops base m g l)) p = 0.
Proof. intros U T. exact (proj2 (unfed_plain l {| x_eng := run_dma m base; x_gpio := g |} 0 sits_start U ltac:(lia))). Qed.
(** A feed that comes after 2047 blocks is too late. *)
Lemma watchdog_late g l : unfed l -> ticks l = 2047 ->
  forall p, 0 <= p < 30 -> function_of (x_gpio (after_ops base m g (l ++ [Feed; Tick]))) p = 0.
Proof.
  intros U T. unfold after_ops. rewrite fold_left_app.
  assert (G: forall l x i, sits (x_eng x) i false -> unfed l -> i + ticks l = 2047 -> sits (x_eng (fold_left (op_step base m) l x)) 2047 false).
  { clear l U T. induction l as [|o l IH]; intros x i S U T; [cbn [ticks] in T; cbn [fold_left]; now replace 2047 with i by lia|]. cbn [fold_left].
    destruct o as [| |off v]; cbn [unfed ticks] in *; [|contradiction|].
    - pose proof (sits_tick _ _ _ S) as (_ & T2 & _). assert (0 <= ticks l) by (clear; induction l as [|o l IHl]; [cbn; lia|destruct o; cbn [ticks]; lia]).
      apply (IH _ (i + 1)); [apply T2; [reflexivity|lia]|exact U|lia].
    - apply (IH _ i); assumption. }
  specialize (G l {| x_eng := run_dma m base; x_gpio := g |} 0 sits_start U ltac:(lia)).
  set (x := fold_left _ l _) in *. clearbody x. cbn [fold_left]. intros p Hp.
  pose proof (sits_performed _ _ _ (sits_feed _ _ _ G)) as P. cbn [Z.eqb Pos.eqb] in P.
  cbn [op_step x_gpio x_eng] in *. rewrite P. now apply off_functions.
Qed.

End Wd.
