(** Proofs about timed executions of the watchdog. *)
From Coq Require Import ZArith Lia List.
From Verif Require Import Watchdog WatchdogProofs WatchdogThread WatchdogThreadSpec.
Import ListNotations.
Local Open Scope Z_scope.

(** Every event comes at most [G] after the last feed (or after [f]). *)
Fixpoint fresh (G f : Z) (l : timed) : Prop :=
  match l with [] => True | (t, o) :: r => t <= f + G /\ fresh G (match o with Feed => t | _ => f end) r end.
Lemma order_le l : forall t t' o, in_order t l -> In (t', o) l -> t <= t'.
Proof.
  induction l as [|[a b] l IH]; intros t t' o H Hi; [destruct Hi|]. destruct H as [H1 H2]. destruct Hi as [E|Hi].
  - injection E as <- <-. exact H1.
  - specialize (IH a t' o H2 Hi). lia.
Qed.
Lemma order_fed l : forall t t', in_order t l -> In t' (fed_at l) -> t <= t'.
Proof.
  induction l as [|[a b] l IH]; intros t t' H Hi; [destruct Hi|]. destruct H as [H1 H2].
  destruct b; cbn [fed_at] in Hi; [|destruct Hi as [->|Hi]; [exact H1|]|]; specialize (IH a t' H2 Hi); lia.
Qed.
Lemma fresh_of l : forall G until t f, in_order t l -> at_most G f until (fed_at l) -> (forall t' o, In (t', o) l -> t' <= until) -> fresh G f l.
Proof.
  induction l as [|[a b] l IH]; intros G until t f Ho Hm Hu; [exact I|]. destruct Ho as [Ho1 Ho2].
  assert (Hu2: forall t' o, In (t', o) l -> t' <= until) by (intros t' o Hi; apply (Hu t' o); now right).
  assert (Ha: a <= until) by (apply (Hu a b); now left).
  cbn [fresh]. destruct b; cbn [fed_at] in Hm.
  - split; [|exact (IH G until a f Ho2 Hm Hu2)]. destruct (fed_at l) as [|x r] eqn:E.
    + cbn in Hm. lia.
    + cbn in Hm. assert (a <= x) by (apply (order_fed l a x Ho2); rewrite E; now left). lia.
  - cbn in Hm. split; [lia|]. exact (IH G until a a Ho2 (proj2 Hm) Hu2).
  - split; [|exact (IH G until a f Ho2 Hm Hu2)]. destruct (fed_at l) as [|x r] eqn:E.
    + cbn in Hm. lia.
    + cbn in Hm. assert (a <= x) by (apply (order_fed l a x Ho2); rewrite E; now left). lia.
Qed.
Lemma feeds_paced sleeps : forall G t from until, t <= from + G -> Forall (fun s => s <= G) sleeps -> until <= fold_left Z.add sleeps t + G ->
  at_most G from until (feed_times t sleeps).
Proof.
  induction sleeps as [|s r IH]; intros G t from until H1 H2 H3; cbn in *.
  - split; [exact H1|exact H3].
  - inversion H2; subst. split; [exact H1|]. apply IH; [lia|assumption|exact H3].
Qed.
(** [n] blocks since the last feed at [f], the last of them at [p]. *)
Lemma fed_of l : forall d G f p n t, 0 < d -> G < 2046 * d -> in_order t l -> f <= t ->
  at_least d (completed_at l) -> (n <> 0 -> 0 < n /\ f + (n - 1) * d <= p /\ at_least d (p :: completed_at l)) -> 0 <= n -> fresh G f l -> fed n (events l).
Proof.
  induction l as [|[a b] l IH]; intros d G f p n t Hd HG Ho Hf Hs Hn Hn0 Hr; [exact I|]. destruct Ho as [Ho1 Ho2]. destruct Hr as [Hr1 Hr2].
  unfold events in *. cbn [map snd]. destruct b; cbn [fed completed_at] in *.
  - assert (K: f + n * d <= a).
    { destruct (Z.eq_dec n 0) as [->|Hz]; [lia|]. destruct (Hn Hz) as (K1 & K2 & K3). cbn in K3. destruct K3 as [K3 _]. lia. }
    split; [nia|].
    apply (IH d G f a (n + 1) a); try assumption; try lia.
    + destruct (completed_at l); [exact I|]. cbn in Hs. apply Hs.
    + intros _. split; [lia|]. split; [lia|]. exact Hs.
  - apply (IH d G a p 0 a); try assumption; try lia.
  - apply (IH d G f p n a); try assumption; lia.
Qed.
Theorem stays_fed l d late t0 until sleeps :
  0 < d -> sleep_us + late < 2046 * d -> in_order 0 l -> at_least d (completed_at l) ->
  fed_at l = feed_times t0 sleeps -> t0 <= sleep_us + late -> Forall (fun s => sleep_us <= s <= sleep_us + late) sleeps ->
  (forall t o, In (t, o) l -> t <= until) -> until <= fold_left Z.add sleeps t0 + sleep_us + late ->
  fed 0 (events l).
Proof.
  intros Hd HG Ho Hs Hf H0 Hl Hu Hl2. apply (fed_of l d (sleep_us + late) 0 0 0 0); try assumption; try lia.
  apply (fresh_of l _ until 0 0 Ho); [|exact Hu]. rewrite Hf. apply feeds_paced; [lia| |lia].
  eapply Forall_impl; [|exact Hl]. cbv beta. intros a Ha. lia.
Qed.

Lemma paced_many l : forall D from until, at_most D from until (completed_at l) -> until - from <= D * (ticks (events l) + 1).
Proof.
  unfold events. induction l as [|[a b] l IH]; intros D from until H; cbn [map snd ticks completed_at at_most] in *; [lia|].
  destruct b; cbn [ticks completed_at at_most] in *; [|exact (IH D from until H)..]. destruct H as [H1 H2]. specialize (IH D a until H2). lia.
Qed.
Lemma unfed_of l : fed_at l = [] -> unfed (events l).
Proof. unfold events. induction l as [|[a b] l IH]; intros H; [exact I|]. destruct b; cbn in *; [exact (IH H)|discriminate|exact (IH H)]. Qed.
Theorem goes_unfed l D from until : 0 < D -> fed_at l = [] -> at_most D from until (completed_at l) -> from + 2050 * D <= until ->
  unfed (events l) /\ 2049 <= ticks (events l).
Proof.
  intros HD Hf Hm Hu. split; [exact (unfed_of l Hf)|]. pose proof (paced_many l D from until Hm). nia.
Qed.

(** A schedule without end: a feed every three seconds, a block every [7500] us. *)
Fixpoint beats (t : Z) (n : nat) (k : timed) : timed :=
  match n with O => k | S n => (t, Tick) :: beats (t + 7500) n k end.
Fixpoint rounds (b : nat) (t : Z) (n : nat) : timed :=
  match n with O => [] | S n => (t, Feed) :: beats t b (rounds b (t + sleep_us) n) end.
Lemma beats_order n : forall t k s, s <= t -> (forall s, s <= t + 7500 * Z.of_nat n -> in_order s k) -> in_order s (beats t n k).
Proof.
  induction n as [|n IH]; intros t k s H K; [apply K; lia|]. split; [exact H|]. apply IH; [lia|]. intros s' H'. apply K. lia.
Qed.
Lemma rounds_order b n : Z.of_nat b = 400 -> forall t s, s <= t -> in_order s (rounds b t n).
Proof.
  intros B. induction n as [|n IH]; intros t s H; [exact I|]. cbn [rounds]. split; [exact H|]. apply beats_order; [lia|]. intros s' H'. apply IH. unfold sleep_us. lia.
Qed.
Lemma beats_fed n : forall t k, fed_at (beats t n k) = fed_at k.
Proof. induction n as [|n IH]; intros t k; [reflexivity|apply IH]. Qed.
Lemma rounds_fed b n : forall t, fed_at (rounds b t (S n)) = feed_times t (repeat sleep_us n).
Proof.
  induction n as [|n IH]; intros t.
  - cbn [rounds fed_at]. rewrite beats_fed. reflexivity.
  - change (rounds b t (S (S n))) with ((t, Feed) :: beats t b (rounds b (t + sleep_us) (S n))).
    change (feed_times t (repeat sleep_us (S n))) with (t :: feed_times (t + sleep_us) (repeat sleep_us n)).
    cbn [fed_at]. rewrite beats_fed, IH. reflexivity.
Qed.
(** The completions of a list begin at or after [t] and are [7500] apart. *)
Definition later (t : Z) (l : timed) : Prop := at_least 7500 (completed_at l) /\ match completed_at l with [] => True | a :: _ => t <= a end.
Lemma beats_later n : forall t k, later (t + 7500 * Z.of_nat n) k -> later t (beats t n k).
Proof.
  induction n as [|n IH]; intros t k H; [now replace t with (t + 7500 * Z.of_nat 0) by lia|].
  assert (L: later (t + 7500) (beats (t + 7500) n k)) by (apply IH; now replace (t + 7500 + 7500 * Z.of_nat n) with (t + 7500 * Z.of_nat (S n)) by lia).
  destruct L as [L1 L2]. split; cbn [beats completed_at]; [|lia]. cbn [at_least]. destruct (completed_at (beats (t + 7500) n k)); [exact I|]. split; [exact L2|exact L1].
Qed.
Lemma rounds_later b n : Z.of_nat b = 400 -> forall t, later t (rounds b t n).
Proof.
  intros B.  induction n as [|n IH]; intros t; [split; exact I|]. cbn [rounds]. unfold later. cbn [completed_at]. apply beats_later.
  rewrite B. exact (IH (t + sleep_us)).
Qed.
Lemma beats_until n : forall t k u, t + 7500 * Z.of_nat n <= u -> (forall t' o, In (t', o) k -> t' <= u) -> forall t' o, In (t', o) (beats t n k) -> t' <= u.
Proof.
  induction n as [|n IH]; intros t k u H K t' o Hi; [exact (K t' o Hi)|]. destruct Hi as [E|Hi]; [injection E as <- <-; lia|].
  apply (IH (t + 7500) k u) with (o := o); [lia|exact K|exact Hi].
Qed.
Lemma rounds_until b n : Z.of_nat b = 400 -> forall t u, t + sleep_us * Z.of_nat n <= u -> forall t' o, In (t', o) (rounds b t n) -> t' <= u.
Proof.
  intros B. induction n as [|n IH]; intros t u H t' o Hi; [destruct Hi|]. cbn [rounds] in Hi. unfold sleep_us in *. destruct Hi as [E|Hi]; [injection E as <- <-; lia|].
  apply (beats_until b t (rounds b (t + 3000000) n) u) with (o := o); [lia| |exact Hi]. apply IH. lia.
Qed.
Lemma sum_repeat n : forall t, fold_left Z.add (repeat sleep_us n) t = t + sleep_us * Z.of_nat n.
Proof. induction n as [|n IH]; intros t; cbn [repeat fold_left]; [lia|]. rewrite IH. lia. Qed.
