(** Proofs about hal.move: the new program. *)
From Coq Require Import ZArith Bool Lia List.
From Verif Require Import PyBase PyNum Config Coordinates Pulses PulseSpec Dma Gpio DmaGpio DmaSpec DmaGpioProofs Pwm Hal HalSpec MoveProofs.
From Coq Require Import List.
Import ListNotations.
Local Open Scope Z_scope.

Section New.
Context {N : PyNum}.
Variable h : hal_config.
Variable base size : Z.
Variable extra : bool.
Hypothesis base_ok : 0 < base.
Notation at_ := (at_ base).
Notation chain := (chain base).
Notation mstep := (mstep h base size).
Notation acts := (acts base extra).
Notation adds := (adds base size).

Lemma adds_snoc l r : forall d d1, adds d l = (d1, Ok tt) -> adds d (l ++ [r]) = add base size d1 r.
Proof.
  induction l as [|a l IH]; intros d d1 E; cbn [DmaGpio.adds app] in *.
  - injection E as ->. destruct (add base size d1 r) as [d2 [[]|e]]; reflexivity.
  - destruct (add base size d a) as [d2 [u|e]]; [now apply IH|discriminate].
Qed.

Lemma acts_agree m m' j : (forall i, (i < j)%nat -> block_ok m (at_ i) /\ forall x, at_ i <= x < at_ i + 32 -> x <> at_ i + 20 -> m' x = m x) ->
  eff (acts m' 0 j) = eff (acts m 0 j).
Proof.
  induction j as [|j IH]; intros H; [reflexivity|]. unfold MoveProofs.acts. rewrite seq_S, !flat_map_app, !eff_app. cbn [flat_map Nat.add]. rewrite !app_nil_r.
  fold (acts m' 0 j) (acts m 0 j). rewrite IH by (intros i Hi; apply H; lia). f_equal. destruct (H j ltac:(lia)) as [B A]. now apply block_local.
Qed.
Lemma acts_snoc m j : acts m 0 (S j) = acts m 0 j ++ transfer extra m (at_ j).
Proof. unfold MoveProofs.acts. rewrite seq_S, flat_map_app. cbn [flat_map Nat.add]. now rewrite app_nil_r. Qed.

Variable l0 : list (item N).
Variable d0 : dma.

(** Calls still to be made. *)
Definition todo (m : mover N) : res (list req) :=
  match m_pc m with
  | MNext | MInst => plan h (m_k m) (m_prev m) (m_items m)
  | MTest it | MPoll it => plan h (m_k m) (m_prev m) (it :: m_items m)
  | MAdd l _ => do! b <- plan h (m_k m) (m_prev m) (m_items m); Ok (l ++ b)
  | _ => Ok []
  end.
Definition after_done (dn : list req) (r : res (list req)) : res (list req) := do! b <- r; Ok (dn ++ b).

(** The engine plays the new program: it is in block [j]. *)
Definition follows (d : dma) (e : engine) (tr : list action) (nb : nat) (fin : bool) : Prop :=
  if e_active e then
    exists j, e_cb e = at_ j /\ (if fin then (j < nb)%nat /\ e_next e = d_mem d (at_ j + 20) else (S j < nb)%nat /\ e_next e = at_ (S j)) /\
              eff tr = eff (acts (d_mem d) 0 j)
  else fin = true /\ e = stopped /\ eff tr = eff (acts (d_mem d) 0 nb).

Definition good (x : machine N) : Prop :=
  match m_pc (x_move x) with
  | MFail _ => True
  | MDone => exists dn d1, adds (clear d0) dn = (d1, Ok tt) /\ run base size d1 false = (x_dma x, Ok tt) /\ plan h 0 0 l0 = Ok dn /\
                           follows (x_dma x) (x_eng x) (x_done x) (blocks dn) true
  | p => exists dn, adds (clear d0) dn = (x_dma x, Ok tt) /\ plan h 0 0 l0 = after_done dn (todo (x_move x)) /\
                    (m_ran (x_move x) = true -> follows (x_dma x) (x_eng x) (x_done x) (blocks dn) false) /\
                    match p with MInst => (3 <= blocks dn)%nat | MAdd l true => (3 <= blocks dn + blocks l)%nat | _ => True end
  end.

Lemma enter_good (m : mover N) it d e tr dn :
  adds (clear d0) dn = (d, Ok tt) -> plan h 0 0 l0 = after_done dn (plan h (m_k m) (m_prev m) (it :: m_items m)) ->
  (m_ran m = true -> follows d e tr (blocks dn) false) ->
  good {| x_move := enter h m it; x_dma := d; x_eng := e; x_done := tr |}.
Proof.
  intros A P F. unfold good, enter. cbn [plan] in P. destruct (plan_item h (m_k m) (m_prev m) it) as [[a [k p]]|ex] eqn:E; cbn [rbind x_move m_pc goto]; [|exact I].
  cbn [rbind] in P. exists dn. cbn [x_dma x_eng x_done m_ran]. split; [exact A|]. split; [exact P|]. split; [exact F|].
  destruct it as [q|q]; [exact I|]. cbn [plan_item] in E. destruct (min_time q); [|discriminate]. destruct (rnd _); [|discriminate]. cbn [rbind] in E.
  injection E as <- _ _. rewrite blocks_app. cbn [blocks fold_right blocks_of]. lia.
Qed.

Lemma follows_add d r d' e tr dn : adds (clear d0) dn = (d, Ok tt) -> add base size d r = (d', Ok tt) ->
  follows d e tr (blocks dn) false -> follows d' e tr (blocks (dn ++ [r])) false.
Proof.
  intros A E F. destruct (clear_chain base d0) as [A0 C0]. destruct (adds_chain base size dn _ _ _ A0 C0 A) as (A1 & _ & C1). cbn [Nat.add] in *.
  destruct (add_chain base size d r d' _ A1 C1 E) as (A2 & _ & C2 & M).
  unfold follows in *. destruct (e_active e); [|destruct F; discriminate]. destruct F as (j & J1 & (J2 & J3) & J4). exists j. split; [exact J1|].
  split; [split; [|exact J3]; rewrite blocks_app; lia|]. rewrite J4. symmetry. apply acts_agree. intros i Hi. destruct (C1 i ltac:(lia)) as [B _].
  split; [exact B|]. intros x Hx _. apply M. rewrite A1. unfold MoveProofs.at_ in *. lia.
Qed.
Lemma run_dma_follows d dn : adds (clear d0) dn = (d, Ok tt) -> (3 <= blocks dn)%nat -> follows d (run_dma (d_mem d) base) [] (blocks dn) false.
Proof.
  intros A L. destruct (clear_chain base d0) as [A0 C0]. destruct (adds_chain base size dn _ _ _ A0 C0 A) as (A1 & _ & C1). cbn [Nat.add] in *.
  unfold follows. cbn [run_dma e_active e_cb e_next]. exists O. split; [unfold MoveProofs.at_; lia|]. split; [|reflexivity]. split; [lia|].
  destruct (C1 O ltac:(lia)) as [_ E]. replace (Nat.eqb 1 (blocks dn)) with false in E by (symmetry; apply Nat.eqb_neq; lia).
  unfold next_cb. replace base with (at_ 0) at 1 by (unfold MoveProofs.at_; lia). exact E.
Qed.

Lemma good_mstep slow x : good x -> good (mstep slow x).
Proof.
  intros G. destruct x as [m d e tr]. destruct m as [pc items en cur k prev k0 ran inst].
  unfold good in G. cbn [x_move x_dma x_eng x_done m_pc m_ran] in G.
  unfold Hal.mstep. cbn [x_move x_dma x_eng x_done m_pc m_cur m_ran m_items m_end m_k m_prev m_k0 m_instant].
  destruct pc as [|it|it|l p| | | | |ex].
  - destruct G as (dn & A & P & F & _). unfold todo in P. cbn [m_pc m_items m_k m_prev] in P.
    destruct items as [|it r]; [destruct en as [ex|]|].
    + exact I.
    + destruct ran; unfold good; cbn [x_move x_dma x_eng x_done m_pc m_ran goto todo]; exists dn; auto.
    + unfold good; cbn [x_move x_dma x_eng x_done m_pc m_ran goto todo m_k m_prev m_items]; exists dn; auto.
  - destruct G as (dn & A & P & F & _). unfold todo in P. cbn [m_pc m_items m_k m_prev] in P.
    destruct cur as [c|]; [destruct (_ >=? c)|].
    + unfold good; cbn [x_move x_dma x_eng x_done m_pc m_ran goto todo m_k m_prev m_items]; exists dn; auto.
    + eapply enter_good; eauto.
    + eapply enter_good; eauto.
  - destruct G as (dn & A & P & F & _). unfold todo in P. cbn [m_pc m_items m_k m_prev] in P.
    destruct (current_cb base e) as [c|].
    + unfold good; cbn [x_move x_dma x_eng x_done m_pc m_ran goto todo m_k m_prev m_items]; exists dn; auto.
    + eapply enter_good; eauto.
  - destruct G as (dn & A & P & F & L). unfold todo in P. cbn [m_pc m_items m_k m_prev] in P.
    destruct l as [|r l].
    + assert (P': plan h 0 0 l0 = after_done dn (plan h k prev items)).
      { rewrite P. unfold after_done. destruct (plan h k prev items); reflexivity. }
      destruct p; unfold good; cbn [x_move x_dma x_eng x_done m_pc m_ran goto todo m_k m_prev m_items]; exists dn; repeat split; auto.
      cbn [blocks fold_right] in L. lia.
    + destruct (add base size d r) as [d' [u|ex]] eqn:E; [|exact I]. destruct u.
      unfold good; cbn [x_move x_dma x_eng x_done m_pc m_ran goto todo m_k m_prev m_items]. exists (dn ++ [r]). split; [rewrite (adds_snoc _ _ _ _ A); exact E|].
      split; [rewrite P; unfold after_done; destruct (plan h k prev items); cbn [rbind]; [|reflexivity]; now rewrite <- app_assoc|].
      split; [intros R; eapply follows_add; eauto|]. destruct p; [|exact I]. cbn [blocks fold_right] in L. fold (blocks l) in L. rewrite blocks_app. cbn [blocks fold_right]. lia.
  - destruct G as (dn & A & P & F & L). unfold todo in P. cbn [m_pc m_items m_k m_prev] in P.
    destruct cur as [c|]; [|destruct (negb ran && inst && (k - k0 >? 100000)); [destruct slow|]];
      unfold good; cbn [x_move x_dma x_eng x_done m_pc m_ran goto todo m_k m_prev m_items]; exists dn; repeat split; auto.
    intros _. now apply run_dma_follows.
  - destruct G as (dn & A & P & F & _). unfold todo in P. cbn [m_pc m_items m_k m_prev] in P.
    destruct (e_active e) eqn:EA; unfold good; cbn [x_move x_dma x_eng x_done m_pc m_ran goto todo m_k m_prev m_items]; exists dn; auto.
  - destruct G as (dn & A & P & F & _). unfold todo in P. cbn [m_pc m_items m_k m_prev] in P. unfold after_done in P. cbn [rbind] in P. rewrite app_nil_r in P.
    destruct (clear_chain base d0) as [A0 C0]. destruct (adds_chain base size dn _ _ _ A0 C0 A) as (A1 & _ & C1). cbn [Nat.add] in *.
    destruct ran.
    + destruct (finalize_stream base size d) as [d' [u|ex]] eqn:E; [|exact I]. destruct u.
      unfold good; cbn [x_move x_dma x_eng x_done m_pc m_ran goto]. specialize (F eq_refl). unfold follows in F.
      destruct (e_active e) eqn:EA; [|destruct F; discriminate]. destruct F as (j & J1 & (J2 & J3) & J4).
      destruct (blocks dn) as [|nb] eqn:B; [lia|]. destruct (final_chain base size _ _ _ A1 C1 E) as (A2 & C2 & M).
      exists dn, d. split; [exact A|]. split; [rewrite final_run by lia; exact E|]. split; [exact P|]. rewrite B.
      unfold follows. rewrite EA. exists j. split; [exact J1|]. split.
      * split; [lia|]. rewrite J3. destruct (C2 j ltac:(lia)) as [_ Q]. replace (Nat.eqb (S j) (S nb)) with false in Q by (symmetry; apply Nat.eqb_neq; lia). now rewrite Q.
      * rewrite J4. symmetry. apply acts_agree. intros i Hi. destruct (C1 i ltac:(lia)) as [Bi _]. split; [exact Bi|]. intros x Hx _. apply M. unfold MoveProofs.at_ in *. lia.
    + destruct (run base size d false) as [d' [u|ex]] eqn:E; [|exact I]. destruct u.
      unfold good; cbn [x_move x_dma x_eng x_done m_pc m_ran goto]. exists dn, d. split; [exact A|]. split; [exact E|]. split; [exact P|].
      unfold follows. cbn [run_dma e_active e_cb e_next]. exists O. split; [unfold MoveProofs.at_; lia|]. split; [|reflexivity].
      apply run_final in E. destruct E as [_ E]. split; [destruct (blocks dn); [cbn in A1; congruence|lia]|].
      unfold next_cb, MoveProofs.at_. f_equal. lia.
  - exact G.
  - exact I.
Qed.

Lemma good_dstep (x : machine N) : in_time base x -> good x -> good (dstep extra x).
Proof.
  intros T G. assert (K: forall (dn : list req) (fin : bool), chain (d_mem (x_dma x)) (if fin then 0 else base + d_addr (x_dma x)) (blocks dn) ->
      d_addr (x_dma x) = 32 * Z.of_nat (blocks dn) -> (fin = false -> e_active (x_eng x) = true -> e_next (x_eng x) + 32 < base + d_addr (x_dma x)) ->
      follows (x_dma x) (x_eng x) (x_done x) (blocks dn) fin -> 
      follows (x_dma x) (advance (d_mem (x_dma x)) (x_eng x)) (x_done x ++ performed extra (d_mem (x_dma x)) (x_eng x)) (blocks dn) fin).
  { intros dn fin C A L F. unfold follows in *. unfold advance, performed. destruct (e_active (x_eng x)) eqn:EA.
    - destruct F as (j & J1 & J2 & J4). specialize (fun H => L H eq_refl). destruct fin.
      + destruct J2 as [J2 J3]. destruct (C j J2) as [_ Q]. rewrite J3, Q. rewrite J1.
        destruct (Nat.eqb_spec (S j) (blocks dn)) as [E|E].
        * cbn [Z.eqb e_active stopped]. repeat split. rewrite eff_app, J4, <- eff_app, <- acts_snoc. now rewrite E.
        * destruct (Z.eqb_spec (at_ (S j)) 0) as [E0|_]; [unfold MoveProofs.at_ in E0; lia|]. cbn [e_active e_cb e_next]. exists (S j). split; [reflexivity|]. split; [split; [lia|reflexivity]|].
          rewrite eff_app, J4, <- eff_app, <- acts_snoc. reflexivity.
      + destruct J2 as [J2 J3]. specialize (L eq_refl). rewrite J3 in *. rewrite J1.
        destruct (Z.eqb_spec (at_ (S j)) 0) as [E0|_]; [unfold MoveProofs.at_ in E0; lia|]. cbn [e_active e_cb e_next].
        assert (L': (S (S j) < blocks dn)%nat) by (unfold MoveProofs.at_ in L; lia).
        exists (S j). split; [reflexivity|]. split; [split; [exact L'|]|].
        * destruct (C (S j) ltac:(lia)) as [_ Q]. replace (Nat.eqb (S (S j)) (blocks dn)) with false in Q by (symmetry; apply Nat.eqb_neq; lia). exact Q.
        * rewrite eff_app, J4, <- eff_app, <- acts_snoc. reflexivity.
    - rewrite EA, app_nil_r. exact F. }
  assert (W: forall dn, m_pc (x_move x) <> MDone -> adds (clear d0) dn = (x_dma x, Ok tt) -> m_ran (x_move x) = true -> 
      follows (x_dma x) (x_eng x) (x_done x) (blocks dn) false -> follows (x_dma x) (advance (d_mem (x_dma x)) (x_eng x)) (x_done x ++ performed extra (d_mem (x_dma x)) (x_eng x)) (blocks dn) false).
  { intros dn ND A R F. destruct (clear_chain base d0) as [A0 C0]. destruct (adds_chain base size dn _ _ _ A0 C0 A) as (A1 & _ & C1). cbn [Nat.add] in *.
    apply K; auto. }
  unfold good, dstep in *. cbn [x_move x_dma x_eng x_done]. unfold in_time in T.
  destruct (m_pc (x_move x)) eqn:PC;
    try (destruct G as (dn & A & P & F & L); exists dn; repeat split; try assumption; intros R; apply W; auto; congruence).
  - destruct G as (dn & d1 & A & R & P & F). exists dn, d1. repeat split; try assumption.
    assert (LD: loaded base size (x_dma x) dn) by (exists d0, d1; auto). destruct (loaded_chain base size _ _ LD) as (n & B & A2 & _ & C).
    apply K; auto; [now rewrite B|rewrite A2; apply bytes_blocks_l|discriminate].
  - exact I.
Qed.

Lemma good_reach x y : good x -> reach_in_time h base size extra x y -> good y.
Proof. intros G R. induction R; [exact G|now apply good_mstep|now apply good_dstep]. Qed.
End New.

Section Program.
Context {N : PyNum}.
Variable h : hal_config.
Variable base size : Z.
Variable extra : bool.
Hypothesis base_ok : 0 < base.

Lemma begin_good (g : list (item N)) ex d e : good h base size extra g d (begin_move h g ex d e).
Proof.
  unfold good, begin_move. cbn [x_move move_start m_pc x_dma m_ran]. exists []. split; [reflexivity|]. split; [|split; [discriminate|exact I]].
  unfold after_done, todo, move_start. cbn [m_pc m_k m_prev m_items]. destruct (plan h 0 0 g); reflexivity.
Qed.

(** When move has returned, the buffer holds the program for the items and the engine is
    playing it. *)
Lemma move_program (g : list (item N)) ex d e x : reach_in_time h base size extra (begin_move h g ex d e) x -> m_pc (x_move x) = MDone ->
  exists rs, plan h 0 0 g = Ok rs /\ loaded base size (x_dma x) rs /\ playing base (d_mem (x_dma x)) (x_eng x) /\
  exists rest, remains extra (d_mem (x_dma x)) (x_eng x) rest /\
    (buffer_ok base size -> Forall sane rs -> forall t, seen t (x_done x ++ rest) = asked t rs).
Proof.
  intros R PC. pose proof (good_reach h base size extra base_ok g d _ _ (begin_good g ex d e) R) as G. unfold good in G. rewrite PC in G.
  destruct G as (dn & d1 & A & RN & P & F). exists dn. split; [exact P|]. assert (LD: loaded base size (x_dma x) dn) by (exists d, d1; auto).
  split; [exact LD|]. destruct (loaded_chain base size _ _ LD) as (n & B & A2 & FZ & C).
  assert (SE: buffer_ok base size -> Forall sane dn -> forall t, seen t (acts base extra (d_mem (x_dma x)) 0 (S n)) = asked t dn).
  { intros BO SN t. destruct (program_plays extra base size d dn t BO SN) as (d1' & d2 & tr & E1 & E2 & E3 & E4 & _); [destruct dn; discriminate|exact FZ|].
    rewrite A in E1. injection E1 as <-. rewrite RN in E2. injection E2 as <-. rewrite <- E4. f_equal. eapply plays_det; [|exact E3].
    pose proof (chain_plays base extra _ _ base_ok C n 0 eq_refl) as Q. replace (at_ base 0) with base in Q by (unfold at_; lia). exact Q. }
  unfold follows in F. unfold playing, remains. destruct (e_active (x_eng x)) eqn:EA.
  - destruct F as (j & J1 & (J2 & J3) & J4). split.
    + right. split; [reflexivity|]. rewrite J1. split; [eapply at_chain; [exact base_ok|exact C|lia]|exact J3].
    + exists (acts base extra (d_mem (x_dma x)) j (S n - j)). split.
      * rewrite J1. replace (S n - j)%nat with (S (n - j)) by lia. eapply chain_plays; [exact base_ok|exact C|lia].
      * intros BO SN t. rewrite <- SE by assumption. rewrite <- seen_eff, eff_app, J4, <- eff_app, seen_eff. f_equal. unfold acts. rewrite <- flat_map_app, <- seq_app. do 2 f_equal. lia.
  - destruct F as (_ & F1 & F2). split; [left; exact F1|]. exists []. split; [reflexivity|]. intros BO SN t. rewrite app_nil_r, <- SE by assumption.
    rewrite <- seen_eff, F2, seen_eff. now rewrite B.
Qed.

(** Streaming: the block being executed belongs to this movement. *)
Lemma move_stream (g : list (item N)) ex d e x : reach_in_time h base size extra (begin_move h g ex d e) x -> m_ran (x_move x) = true ->
  e_active (x_eng x) = true -> (forall e, m_pc (x_move x) <> MFail e) -> base <= e_cb (x_eng x) /\ e_cb (x_eng x) + 32 <= base + d_addr (x_dma x).
Proof.
  intros R MR EA NF. pose proof (good_reach h base size extra base_ok g d _ _ (begin_good g ex d e) R) as G. unfold good in G.
  assert (K: forall (dn : list req) (fin : bool), d_addr (x_dma x) = 32 * Z.of_nat (blocks dn) -> follows base extra (x_dma x) (x_eng x) (x_done x) (blocks dn) fin -> base <= e_cb (x_eng x) /\ e_cb (x_eng x) + 32 <= base + d_addr (x_dma x)).
  { intros dn fin A F. unfold follows in F. rewrite EA in F. destruct F as (j & J1 & J2 & _). rewrite J1, A. unfold at_. destruct fin; lia. }
  destruct (m_pc (x_move x)) eqn:PC; try (destruct G as (dn & A & P & F & L); specialize (F MR); destruct (clear_chain base d) as [A0 C0]; destruct (adds_chain base size dn _ _ _ A0 C0 A) as (A1 & _ & _); eapply K; eauto).
  - destruct G as (dn & d1 & A & RN & P & F). assert (LD: loaded base size (x_dma x) dn) by (exists d, d1; auto). destruct (loaded_chain base size _ _ LD) as (n & B & A2 & FZ & C).
    eapply K; [|exact F]. rewrite A2. apply bytes_blocks_l.
  - now destruct (NF e0).
Qed.

(** Without instant run the engine never needs to be in time. *)
Lemma mstep_ran slow (x : machine N) : instant_run h = false -> m_instant (x_move x) = false /\ m_ran (x_move x) = false ->
  m_instant (x_move (mstep h base size slow x)) = false /\ m_ran (x_move (mstep h base size slow x)) = false.
Proof.
  intros HI [I R]. destruct x as [m d e tr]. destruct m as [pc items en cur k prev k0 ran inst]. cbn [x_move m_instant m_ran] in *. subst.
  assert (EN: forall (m : mover N) it, m_instant (enter h m it) = m_instant m /\ m_ran (enter h m it) = m_ran m).
  { intros m it. unfold enter. destruct (plan_item h (m_k m) (m_prev m) it) as [[a [k' p']]|ex]; split; reflexivity. }
  unfold mstep. cbn [x_move x_dma x_eng x_done m_pc m_cur m_ran m_items m_end m_k m_prev m_k0 m_instant].
  destruct pc as [|it|it|l p| | | | |ex].
  - destruct items; [destruct en|]; split; reflexivity.
  - destruct cur as [c|]; [destruct (_ >=? c)|]; cbn [x_move goto m_instant m_ran]; rewrite ?(proj1 (EN _ _)), ?(proj2 (EN _ _)); split; reflexivity.
  - destruct (current_cb base e); cbn [x_move m_instant m_ran]; rewrite ?(proj1 (EN _ _)), ?(proj2 (EN _ _)); split; reflexivity.
  - destruct l as [|r l]; [split; reflexivity|]. destruct (add base size d r) as [d' [u|ex]]; split; reflexivity.
  - destruct cur; [split; reflexivity|]. cbn [negb andb]. split; reflexivity.
  - destruct (e_active e); split; reflexivity.
  - destruct (run base size d false) as [d' [u|ex]]; split; reflexivity.
  - split; reflexivity.
  - split; reflexivity.
Qed.
Lemma reach_no_instant (g : list (item N)) ex d e x : instant_run h = false -> reach h base size extra (begin_move h g ex d e) x ->
  m_instant (x_move x) = false /\ m_ran (x_move x) = false /\ reach_in_time h base size extra (begin_move h g ex d e) x.
Proof.
  intros HI R. induction R as [|x y R (IH1 & IH2 & IH3) S].
  - split; [exact HI|]. split; [reflexivity|constructor].
  - destruct S.
    + destruct (mstep_ran slow x HI (conj IH1 IH2)). repeat split; try assumption. now constructor.
    + repeat split; try assumption. constructor; [assumption|]. intros Q. congruence.
Qed.
End Program.

(* ------------------------------------------------------------------ *)
(** ** The calls made for a list of items *)
Section Calls.
Context {N : PyNum}.
Variable h : hal_config.

Lemma min_pulse_at (t : N) q : pulse_at t (Pulses.Pulse q) -> min_time q = Some t.
Proof.
  intros (q' & E & (m & M) & U). injection E as <-. unfold min_time.
  assert (K: forall m o, qat m q = o -> o = None \/ o = Some t) by (intros m' [t'|] H; [right; f_equal; eapply U, H|now left]).
  assert (S: forall a b, (a = None \/ a = Some t) -> (b = None \/ b = Some t) ->
             (min_step a b = None \/ min_step a b = Some t) /\ (a = Some t \/ b = Some t -> min_step a b = Some t)).
  { intros a b [->| ->] [->| ->]; cbn [min_step]; try (destruct (ltb t t)); split; auto; intros [Q|Q]; congruence. }
  destruct (S None (qx q) (or_introl eq_refl) (K MX _ eq_refl)) as [A1 B1].
  destruct (S _ (qy q) A1 (K MY _ eq_refl)) as [A2 B2]. destruct (S _ (qz q) A2 (K MZ _ eq_refl)) as [A3 B3].
  destruct (S _ (qe q) A3 (K ME _ eq_refl)) as [A4 B4]. destruct m; cbn [qat] in M; auto 10.
Qed.
Lemma step_mask_of (q : quad (option N)) : step_mask h q = mask_of (step_pin h) (moves q).
Proof.
  unfold step_mask, mask_of, moves, step_bits. cbn [fold_right qat].
  destruct (qx q), (qy q), (qz q), (qe q); rewrite ?Z.lor_0_l, ?Z.lor_0_r, ?Z.lor_assoc; reflexivity.
Qed.
Lemma dir_req_of d : dir_req h d = SetClear (mask_of (dir_pin h) (fun m => qat m d <? 0)) (mask_of (dir_pin h) (fun m => 0 <? qat m d)).
Proof.
  destruct d as [x y z e]. unfold dir_req, dir_bits, mask_of. cbn [fold_right qat qx qy qz qe].
  generalize (bit (qx (dir_pin h))) (bit (qy (dir_pin h))) (bit (qz (dir_pin h))) (bit (qe (dir_pin h))). intros bx by_ bz be.
  destruct x, y, z, e; cbn [Z.gtb Z.ltb Z.compare fst snd]; rewrite ?Z.lor_0_l, ?Z.lor_0_r, ?Z.lor_assoc; reflexivity.
Qed.

(** The calls and what they ask for. *)
Lemma plan_asked (l : list (item N)) tl : timed l tl -> forall k last lag,
  exists rs, plan h k last l = Ok rs /\ asked (last + lag) rs = ideal h (last + lag) (delayed h last lag tl).
Proof.
  induction 1 as [|d l tl H IH|q t z l tl P S H IH]; intros k last lag.
  - exists []. split; reflexivity.
  - destruct (IH k last lag) as (rs & E & A). cbn [plan plan_item rbind]. rewrite E. cbn [rbind]. eexists. split; [reflexivity|].
    rewrite dir_req_of. cbn [app asked delayed ideal]. rewrite A. reflexivity.
  - cbn [plan plan_item]. rewrite (min_pulse_at _ _ P). unfold stamp in S. rewrite S. cbn [rbind].
    destruct (IH z (z + pulse_us h) (lag + Z.max 0 (last - z))) as (rs & E & A). rewrite E. cbn [rbind]. eexists. split; [reflexivity|].
    rewrite step_mask_of. cbn [delayed ideal]. rewrite Z.gtb_ltb. destruct (Z.ltb_spec 0 (z - last)); cbn [app asked].
    + replace (last + lag + (z - last)) with (z + (lag + Z.max 0 (last - z))) by lia.
      replace (z + (lag + Z.max 0 (last - z)) + pulse_us h) with (z + pulse_us h + (lag + Z.max 0 (last - z))) by lia. now rewrite A.
    + replace (last + lag) with (z + (lag + Z.max 0 (last - z))) by lia.
      replace (z + (lag + Z.max 0 (last - z)) + pulse_us h) with (z + pulse_us h + (lag + Z.max 0 (last - z))) by lia. now rewrite A.
Qed.

Lemma delayed_spaced (tl : list (item N * Z)) : forall last, spaced h last tl -> delayed h last 0 tl = tl.
Proof.
  induction tl as [|[[d|q] k] r IH]; intros last S; cbn [delayed spaced] in *; [reflexivity|now rewrite IH|].
  destruct S as [L S]. replace (0 + Z.max 0 (last - k)) with 0 by lia. rewrite Z.add_0_r, IH by exact S. reflexivity.
Qed.
(** Every pulse is late by at most what the pulses before it last. *)
Lemma delayed_bound (tl : list (item N * Z)) : forall last lag n, 0 <= pulse_us h -> 0 <= lag <= n -> ordered (last - pulse_us h) tl ->
  forall i, nth_error (map fst (delayed h last lag tl)) i = nth_error (map fst tl) i /\
    match nth_error tl i, nth_error (delayed h last lag tl) i with
    | Some (Pulses.Pulse _, k), Some (_, k') => k <= k' <= k + n + pulse_us h * Z.of_nat (S i)
    | _, _ => True
    end.
Proof.
  induction tl as [|[[d|q] k] r IH]; intros last lag n U L O i; cbn [delayed ordered map fst] in *.
  - destruct i; split; exact I || reflexivity.
  - destruct i as [|i]; cbn [nth_error]; [split; [reflexivity|exact I]|]. destruct (IH last lag n U L O i) as [I1 I2]. split; [exact I1|].
    destruct (nth_error r i) as [[[d'|q'] k']|]; try exact I. destruct (nth_error (delayed h last lag r) i) as [[it k'']|]; [|exact I]. nia.
  - destruct O as [L1 O]. replace k with (k + pulse_us h - pulse_us h) in O by lia.
    destruct i as [|i]; cbn [nth_error]; [split; [reflexivity|lia]|]. destruct (IH (k + pulse_us h) (lag + Z.max 0 (last - k)) (n + pulse_us h) U ltac:(lia) O i) as [I1 I2].
    split; [exact I1|]. destruct (nth_error r i) as [[[d'|q'] k']|]; try exact I. destruct (nth_error (delayed _ _ _ _) i) as [[it k'']|]; [|exact I]. nia.
Qed.

Lemma lor_u32 a b : 0 <= a < 2 ^ 32 -> 0 <= b < 2 ^ 32 -> 0 <= Z.lor a b < 2 ^ 32.
Proof.
  intros A B. split; [apply Z.lor_nonneg; lia|]. destruct (Z.eq_dec (Z.lor a b) 0) as [->|Z0]; [lia|].
  assert (P: 0 <= Z.lor a b) by (apply Z.lor_nonneg; lia). apply Z.log2_lt_pow2; [lia|]. rewrite Z.log2_lor by lia.
  apply Z.max_lub_lt; [destruct (Z.eq_dec a 0) as [->|]; [cbn; lia|]|destruct (Z.eq_dec b 0) as [->|]; [cbn; lia|]]; apply Z.log2_lt_pow2; lia.
Qed.
Lemma bit_u32 p : pin_ok p -> 0 <= bit p < 2 ^ 32.
Proof. unfold pin_ok, bit. intros H. rewrite Z.shiftl_mul_pow2, Z.mul_1_l by lia. split; [apply Z.pow_nonneg; lia|apply Z.pow_lt_mono_r; lia]. Qed.
Lemma mask_u32 pins f : (forall m, pin_ok (qat m pins)) -> mask_ok (mask_of pins f).
Proof.
  intros P. unfold mask_ok, mask_of. cbn [fold_right].
  repeat match goal with |- context [if f ?m then _ else _] => destruct (f m) end;
    repeat (apply lor_u32; [apply bit_u32, P|]); lia.
Qed.
Lemma plan_sane (l : list (item N)) tl : timed l tl -> pins_ok h -> 0 <= pulse_us h < 2 ^ 26 -> forall k last rs,
  gaps h last tl -> plan h k last l = Ok rs -> Forall sane rs.
Proof.
  intros T PK U. induction T as [|d l tl H IH|q t z l tl P S H IH]; intros k last rs G E.
  - injection E as <-. constructor.
  - cbn [plan plan_item rbind gaps] in *. destruct (plan h k last l) as [b|] eqn:EB; [|discriminate]. injection E as <-. constructor; [|eapply IH; eassumption].
    rewrite dir_req_of. split; apply mask_u32; intros m; apply PK.
  - cbn [plan plan_item gaps] in *. destruct G as [G1 G2]. rewrite (min_pulse_at _ _ P) in E. unfold stamp in S. rewrite S in E. cbn [rbind] in E.
    destruct (plan h z (z + pulse_us h) l) as [b|] eqn:EB; [|discriminate]. cbn [rbind] in E. injection E as <-.
    apply Forall_app. split; [|eapply IH; eassumption]. apply Forall_app. split.
    + destruct (Z.gtb_spec (z - last) 0); constructor; [|constructor]. cbn [sane]. lia.
    + constructor; [|constructor]. rewrite step_mask_of. split; [apply mask_u32; intros m; apply PK|exact U].
Qed.
Lemma plan_length (l : list (item N)) tl : timed l tl -> forall k last rs, plan h k last l = Ok rs -> bytes rs <= 128 * Z.of_nat (length l).
Proof.
  induction 1 as [|d l tl H IH|q t z l tl P S H IH]; intros k last rs E; cbn [plan] in E.
  - injection E as <-. cbn. lia.
  - cbn [plan_item rbind] in E. destruct (plan h k last l) as [b|] eqn:EB; [|discriminate]. injection E as <-. specialize (IH _ _ _ EB).
    cbn [length]. change (bytes (dir_req h d :: b)) with (bytes_of (dir_req h d) + bytes b). rewrite dir_req_of. cbn [bytes_of]. lia.
  - destruct (plan_item h k last (Pulses.Pulse q)) as [[a [k' p']]|] eqn:EP; [|discriminate]. cbn [rbind] in E.
    destruct (plan h k' p' l) as [b|] eqn:EB; [|discriminate]. injection E as <-. apply plan_bytes in EP.
    assert (A: bytes (a ++ b) = bytes a + bytes b). { clear. induction a as [|r a IH]; [reflexivity|]. cbn [app]. rewrite !bytes_cons, IH. lia. }
    cbn [plan_item] in *. rewrite A. cbn [length].
    assert (bytes b <= 128 * Z.of_nat (length l)) by (eapply IH; exact EB). lia.
Qed.
End Calls.
