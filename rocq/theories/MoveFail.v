(** Proofs about hal.move: a movement that fits into the buffer does not fail. *)
From Coq Require Import ZArith Bool Lia List.
From Verif Require Import PyBase PyNum Config Coordinates Pulses PulseSpec Dma Gpio DmaGpio DmaSpec DmaGpioProofs Pwm Hal HalSpec MoveProofs MoveNew.
From Coq Require Import List.
Import ListNotations.
Local Open Scope Z_scope.

Section Fits.
Context {N : PyNum}.
Variable h : hal_config.
Variable base size : Z.
Variable extra : bool.
Notation adds := (adds base size).
Notation mstep := (mstep h base size).
Variable l0 : list (item N).
Variable d0 : dma.
Variable rs : list req.
Hypothesis buf : buffer_ok base size.
Hypothesis san : Forall sane rs.
Hypothesis some : rs <> [].
Hypothesis fits : bytes rs <= size.

Lemma adds_prefix l1 l2 : forall d d2, adds d (l1 ++ l2) = (d2, Ok tt) -> exists d1, adds d l1 = (d1, Ok tt) /\ adds d1 l2 = (d2, Ok tt).
Proof.
  induction l1 as [|r l1 IH]; intros d d2 E; cbn [DmaGpio.adds app] in *; [exists d; auto|].
  destruct (add base size d r) as [d1 [u|e]]; [apply IH, E|discriminate].
Qed.
Lemma all_added : exists d1 d2, adds (clear d0) rs = (d1, Ok tt) /\ run base size d1 false = (d2, Ok tt).
Proof. destruct (program_plays extra base size d0 rs 0 buf san some fits) as (d1 & d2 & _ & A & R & _). eauto. Qed.
Lemma next_added dn r l d : adds (clear d0) dn = (d, Ok tt) -> rs = dn ++ r :: l -> exists d', add base size d r = (d', Ok tt).
Proof.
  intros A E. destruct all_added as (d1 & d2 & A1 & _). rewrite E in A1. destruct (adds_prefix _ _ _ _ A1) as (d' & A2 & A3).
  assert (d' = d) by congruence. subst d'. cbn [DmaGpio.adds] in A3. destruct (add base size d r) as [d' [[]|e]]; [eauto|discriminate].
Qed.

(** Nothing has failed; what was added and what is left make up the program. *)
Definition fine (x : machine N) : Prop :=
  m_end (x_move x) = None /\
  match m_pc (x_move x) with
  | MFail _ => False
  | MDone => True
  | _ => exists dn, adds (clear d0) dn = (x_dma x, Ok tt) /\ after_done dn (todo h (x_move x)) = Ok rs
  end.

Lemma fine_enter (m : mover N) it d e tr dn : m_end m = None -> adds (clear d0) dn = (d, Ok tt) ->
  after_done dn (plan h (m_k m) (m_prev m) (it :: m_items m)) = Ok rs ->
  fine {| x_move := enter h m it; x_dma := d; x_eng := e; x_done := tr |}.
Proof.
  intros EN A P. unfold fine, enter. cbn [plan] in P. destruct (plan_item h (m_k m) (m_prev m) it) as [[a [k p]]|ex] eqn:E; cbn [rbind] in P; [|discriminate P].
  cbn [x_move m_end m_pc]. split; [exact EN|]. exists dn. split; [exact A|]. exact P.
Qed.

Lemma fine_mstep slow x : fine x -> fine (mstep slow x).
Proof.
  intros G. destruct x as [m d e tr]. destruct m as [pc items en cur k prev k0 ran inst].
  unfold fine in G. cbn [x_move x_dma x_eng x_done m_pc m_ran m_end] in G. destruct G as [-> G].
  unfold Hal.mstep. cbn [x_move x_dma x_eng x_done m_pc m_cur m_ran m_items m_end m_k m_prev m_k0 m_instant].
  destruct pc as [|it|it|l p| | | | |ex]; try (destruct G as (dn & A & P); unfold todo in P; cbn [m_pc m_items m_k m_prev] in P).
  - destruct items as [|it r].
    + destruct ran; unfold fine; cbn [x_move x_dma m_pc m_end goto]; split; try reflexivity; exists dn; auto.
    + unfold fine; cbn [x_move x_dma m_pc m_end]; split; try reflexivity; exists dn; auto.
  - destruct cur as [c|]; [destruct (_ >=? c)|].
    + unfold fine; cbn [x_move x_dma m_pc m_end goto]; split; try reflexivity; exists dn; auto.
    + eapply fine_enter; eauto.
    + eapply fine_enter; eauto.
  - destruct (current_cb base e) as [c|].
    + unfold fine; cbn [x_move x_dma m_pc m_end]; split; try reflexivity; exists dn; auto.
    + eapply fine_enter; eauto.
  - destruct l as [|r l].
    + assert (P': after_done dn (plan h k prev items) = Ok rs) by (rewrite <- P; unfold after_done; destruct (plan h k prev items); reflexivity).
      destruct p; unfold fine; cbn [x_move x_dma m_pc m_end goto]; split; try reflexivity; exists dn; auto.
    + unfold after_done in P. destruct (plan h k prev items) as [b|] eqn:EB; cbn [rbind] in P; [|discriminate]. injection P as P.
      destruct (next_added dn r (l ++ b) d A ltac:(now symmetry)) as [d' E]. rewrite E.
      unfold fine; cbn [x_move x_dma m_pc m_end goto]; split; [reflexivity|]. exists (dn ++ [r]). split; [rewrite (adds_snoc base size _ _ _ _ A); exact E|].
      unfold after_done, todo. cbn [m_pc m_k m_prev m_items goto]. rewrite EB. cbn [rbind]. rewrite <- app_assoc. cbn [app]. now rewrite P.
  - destruct cur as [c|]; [|destruct (negb ran && inst && (k - k0 >? 100000)); [destruct slow|]];
      unfold fine; cbn [x_move x_dma m_pc m_end goto]; split; try reflexivity; exists dn; auto.
  - destruct (e_active e); unfold fine; cbn [x_move x_dma m_pc m_end goto]; split; try reflexivity; exists dn; auto.
  - unfold after_done in P. cbn [rbind] in P. rewrite app_nil_r in P. injection P as ->.
    destruct all_added as (d1 & d2 & A1 & R). assert (d1 = d) by congruence. subst d1. rewrite R.
    destruct ran; [|split; [reflexivity|exact I]].
    unfold run in R. destruct (d_addr d =? 0); [discriminate|]. rewrite R. split; [reflexivity|exact I].
  - split; [reflexivity|exact I].
  - destruct G.
Qed.
Lemma fine_reach x y : fine x -> reach h base size extra x y -> fine y.
Proof. intros G R. induction R as [|y z R IH S]; [exact G|]. destruct S; [now apply fine_mstep|exact IH]. Qed.
End Fits.

Lemma move_fits {N : PyNum} h base size extra (g : list (item N)) rs d e x : buffer_ok base size -> plan h 0 0 g = Ok rs -> Forall sane rs -> rs <> [] ->
  bytes rs <= size -> reach h base size extra (begin_move h g None d e) x -> forall ex, m_pc (x_move x) <> MFail ex.
Proof.
  intros B P S NE L R ex PC.
  assert (F: fine h base size d rs (begin_move h g None d e)).
  { unfold fine, begin_move. cbn [x_move move_start m_end m_pc]. split; [reflexivity|]. exists []. split; [reflexivity|].
    unfold after_done, todo. cbn [m_pc move_start m_k m_prev m_items]. rewrite P. reflexivity. }
  pose proof (fine_reach h base size extra d rs B S NE L _ _ F R) as [_ G]. rewrite PC in G. exact G.
Qed.
