(** Arcs on the grid of the motors in binary64, from any generator and from the
    histories of the machine. *)
From Coq Require Import ZArith Bool Reals Lra Lia List Psatz.
From Flocq Require Import Core BinarySingleNaN.
From Verif Require Import PyBase PyNum ArcExact PyFloatFacts FloatRel Config Coordinates Pulses PulseSpec GMachine Decimal MachinePos MachineArc LinearGen ArcSpec ArcRun ArcMake ArcTravel ArcFloat ArcGrid ArcQuarters ArcNet ArcAngle ArcFloatNet ArcMachine.
From Coq Require Import List.
From Flocq Require Import Core.
Import ListNotations.
Local Open Scope R_scope.

(** An arc on the grid of the motors in binary64, in a plane whose axes both have [p]
    steps per mm: seen from the centre it goes from (sa, sb) to (ea, eb) steps, while
    the third axis makes jc steps. The lengths in mm are the doubles nearest to these
    numbers of steps divided by the steps per mm. *)
Record float_arc (cfg : config) (pl : plane) (delta radius : quad f64) (p sa sb ea eb jc : Z) : Prop := {
  fa_a : axis_a pl (ppm cfg) = p;
  fa_b : axis_b pl (ppm cfg) = p;
  fa_sa : nearest_to p (- sa) (axis_a pl radius);
  fa_sb : nearest_to p (- sb) (axis_b pl radius);
  fa_ea : nearest_to p (ea - sa) (axis_a pl delta);
  fa_eb : nearest_to p (eb - sb) (axis_b pl delta);
  fa_c : nearest_to (axis_c pl (ppm cfg)) jc (axis_c pl delta);
  fa_small : (Z.abs sa <= 65536 * p /\ Z.abs sb <= 65536 * p /\ Z.abs (ea - sa) <= 65536 * p /\ Z.abs (eb - sb) <= 65536 * p /\
              Z.abs jc <= 65536 * axis_c pl (ppm cfg))%Z
}.

Section End_.
Variable acos : f64 -> f64.
Notation N := (F64 acos).
Variable cfg : config.
Hypothesis Hcfg : good_cfg cfg.
Variables (delta radius : quad N) (pl : plane) (rot : rotation) (v : N).
Variable g : circular_gen N.
Hypothesis Hg : make_circular cfg delta radius pl rot v = Ok g.
Variables (p sa sb ea eb jc : Z).
Hypothesis G : float_arc cfg pl delta radius p sa sb ea eb jc.
Let M := make_circular_made _ _ _ _ _ _ _ Hg.
Notation K f := (f _ _ _ _ _ _ _ M).

Lemma fe_axis : exists t, axis_cfg p t.
Proof. destruct (axis_a_cfg cfg Hcfg pl) as [t A]. exists t. rewrite <- (fa_a _ _ _ _ _ _ _ _ _ _ G). exact A. Qed.
Lemma fe_hp : (0 < p <= 1000)%Z. Proof. destruct fe_axis as [t A]. apply A. Qed.
Lemma fe_hs : (p * step p = 10000000000)%Z. Proof. destruct fe_axis as [t A]. exact (step_mul _ _ A). Qed.
Lemma fe_dec n x : nearest_to p n x -> dec (n * step p) x.
Proof. destruct fe_axis as [t A]. apply (nearest_dec _ _ _ _ A). Qed.
Lemma fe_starts : starts_inside g.
Proof.
  destruct G as [E1 E2 S1 S2 J1 J2 _ B].
  apply (arc_starts_inside acos cfg delta radius pl rot v g p (step p) fe_hp fe_hs E1 E2 (- sa) (- sb) (ea - sa) (eb - sb)); try (apply fe_dec; assumption); try lia. exact M.
Qed.
Lemma fe_nonzero (x y : f64) i j an : near p i x -> near p j y -> angle_of (N:=N) x y = Ok an -> (i <> 0 \/ j <> 0)%Z.
Proof.
  intros Nx Ny E. destruct (Z.eq_dec i 0) as [I|]; [|now left]. destruct (Z.eq_dec j 0) as [J|]; [|now right]. exfalso.
  assert (X := n_zero _ _ _ Nx I). assert (Y := n_zero _ _ _ Ny J). unfold angle_of in E.
  change (add (p:=N)) with f_add in E. change (mul (p:=N)) with f_mul in E. change (sqrtn (p:=N)) with f_sqrt in E. change (div (p:=N)) with f_div in E. change (num N) with f64 in *.
  destruct (near_hyp p fe_hp i j x y) with (h := match f_sqrt (f_add (f_mul x x) (f_mul y y)) with Ok h => h | Raise _ => x end) as [F C]; try assumption.
  - destruct (f_sqrt _); [reflexivity|discriminate E].
  - destruct (f_sqrt (f_add (f_mul x x) (f_mul y y))) as [h|]; cbn [rbind] in E; [|discriminate E].
    rewrite X, Y in C. replace (0 * 0 + 0 * 0) with 0 in C by ring. rewrite sqrt_0 in C. unfold cl in C.
    assert (H0: val h = 0) by lra. unfold f_div in E. destruct h as [b|b| |b m e Hb]; try discriminate F; [discriminate E|]. exfalso. revert H0. apply F2R_neq_0. cbn. destruct b; discriminate.
Qed.
Lemma fe_ends : (sa <> 0 \/ sb <> 0)%Z /\ (ea <> 0 \/ eb <> 0)%Z.
Proof.
  destruct G as [E1 E2 S1 S2 J1 J2 _ B]. apply fe_dec in S1, S2, J1, J2. assert (Hp := fe_hp). assert (Hs := fe_hs).
  assert (N1 := n_sa acos cfg radius pl p (step p) Hp Hs E2 (- sa) (eb - sb) S1 ltac:(lia) ltac:(lia)).
  assert (N2 := n_sb acos cfg radius pl p (step p) Hp Hs E2 (- sb) (eb - sb) S2 ltac:(lia) ltac:(lia)).
  assert (N3 := n_ea acos cfg delta radius pl p (step p) Hp Hs E2 (- sa) (ea - sa) (eb - sb) S1 J1 ltac:(lia) ltac:(lia) ltac:(lia)).
  assert (N4 := n_eb acos cfg delta radius pl p (step p) Hp Hs E2 (- sb) (eb - sb) S2 J2 ltac:(lia) ltac:(lia)).
  assert (Q1 := fe_nonzero _ _ _ _ _ N1 N2 (K k_start_eq)). assert (Q2 := fe_nonzero _ _ _ _ _ N3 N4 (K k_end_eq)). lia.
Qed.
Lemma fe_third l : completes cfg (GCircular g) l -> travel cfg (motor_c pl) l = (Z.sgn jc * Zceil (back (axis_c pl (ppm cfg)) (Z.abs jc)))%Z.
Proof.
  destruct (axis_c_cfg cfg Hcfg pl) as [t A]. destruct G as [E1 E2 S1 S2 J1 J2 Jc B].
  apply (third_travel acos cfg delta radius pl rot v g M fe_starts _ t jc A eq_refl); [|lia]. now apply (nearest_dec _ _ _ _ A).
Qed.
Hypothesis Hacos : orderly_acos acos.
Hypothesis Far : (len_steps sa sb <= 1048576)%Z.
Hypothesis Wa : Ztrunc (back p sa) = sa.
Hypothesis Wb : Ztrunc (back p sb) = sb.
Hypothesis Wr : Ztrunc (back p (len_steps sa sb)) = len_steps sa sb.
Lemma fe_travel l : onward_arc sa sb ea eb -> completes cfg (GCircular g) l ->
  travel cfg (motor_a pl) l = (ea - sa)%Z /\ travel cfg (motor_b pl) l = (eb - sb)%Z.
Proof.
  intros F Hl. destruct fe_ends as [Hst Hen]. destruct G as [E1 E2 S1 S2 J1 J2 _ B]. apply fe_dec in S1, S2, J1, J2. assert (Hp := fe_hp). assert (Hs := fe_hs).
  assert (R: K k_rm = len_steps sa sb).
  { rewrite <- (Z.opp_involutive sa), <- (Z.opp_involutive sb).
    apply (rho_len acos cfg delta radius pl rot v g p (step p) Hp Hs E1 E2 (- sa) (- sb) (ea - sa) (eb - sb)); try assumption; try lia. now rewrite !Z.opp_involutive. }
  apply (float_travel acos Hacos cfg delta radius pl rot v g p (step p) Hp Hs E1 E2 (- sa) (- sb) (ea - sa) (eb - sb) S1 S2 J1 J2) with M; try lia; rewrite ?Z.opp_involutive, ?R; try assumption.
  unfold onward. rewrite !Z.opp_involutive. replace (sa + (ea - sa))%Z with ea by lia. replace (sb + (eb - sb))%Z with eb by lia.
  unfold onward_arc, forward_arc, back_in_quarter in F. destruct (Z.eq_dec (quadrant ea eb) (quadrant sa sb)) as [Q|Q]; [|left; exact Q]. right.
  destruct F as [F|[F|[F1 F2]]]; [contradiction|left; lia|right]. split; [exact Q|]. split; [exact F1|]. lia.
Qed.
End End_.

(** A power of two: the conversions are exact. *)
Lemma back_pow2 p n k : (0 < p <= 1000)%Z -> (0 <= n)%Z -> (p = 2 ^ n)%Z -> (Z.abs k <= 262144 * p)%Z -> back p k = IZR k.
Proof.
  intros Hp Hn Ep Hk. assert (Pp := p_pos p Hp). unfold back.
  assert (X: rd (IZR k / IZR p) = IZR k / IZR p).
  { apply rd_format. replace (IZR k / IZR p) with (F2R (Float radix2 k (- n))).
    - apply generic_format_FLT. exists (Float radix2 k (- n)); [reflexivity| |].
      + cbn [Fnum]. change (prec64) with 53%Z. change (radix2 ^ 53)%Z with (2 ^ 53)%Z. lia.
      + cbn [Fexp]. unfold SpecFloat.emin. change prec64 with 53%Z. change emax64 with 1024%Z.
        assert (n <= 10)%Z; [|lia]. apply (Z.pow_le_mono_r_iff 2); try lia.
    - unfold F2R. cbn [Fnum Fexp]. rewrite bpow_opp, <- (IZR_Zpower radix2) by exact Hn. change (radix2 ^ n)%Z with (2 ^ n)%Z. rewrite <- Ep. reflexivity. }
  rewrite X. replace (IZR k / IZR p * IZR p) with (IZR k) by (field; lra).
  apply rd_IZR. lia.
Qed.
Lemma float_pow2 acos cfg (delta radius : quad (F64 acos)) pl rot (v : F64 acos) (g : circular_gen (F64 acos)) n nc sa sb ea eb jc l :
  orderly_acos acos -> good_cfg cfg -> make_circular cfg delta radius pl rot v = Ok g ->
  (0 <= n)%Z -> (0 <= nc)%Z -> axis_c pl (ppm cfg) = (2 ^ nc)%Z -> float_arc cfg pl delta radius (2 ^ n) sa sb ea eb jc ->
  onward_arc sa sb ea eb -> (len_steps sa sb <= 1048576)%Z -> completes cfg (GCircular g) l ->
  travel cfg (motor_a pl) l = (ea - sa)%Z /\ travel cfg (motor_b pl) l = (eb - sb)%Z /\ travel cfg (motor_c pl) l = jc.
Proof.
  intros Ha Hc Hg Hn Hnc Ec G F Far Hl.
  assert (Hp := fe_hp acos cfg Hc delta radius pl _ _ _ _ _ _ G). set (p := (2 ^ n)%Z) in *. assert (B := fa_small _ _ _ _ _ _ _ _ _ _ G).
  assert (L: (0 <= len_steps sa sb <= 262144 * p)%Z).
  { unfold len_steps. assert (Q: sqrt (IZR (sa * sa + sb * sb)) <= IZR (131072 * p)).
    { rewrite <- (sqrt_square (IZR (131072 * p))) by (apply (IZR_le 0); lia). apply sqrt_le_1_alt. rewrite <- mult_IZR. apply IZR_le. nia. }
    assert (H := Znearest_half (fun z => negb (Z.even z)) (sqrt (IZR (sa * sa + sb * sb)))). assert (H0 := sqrt_pos (IZR (sa * sa + sb * sb))). apply Rabs_le_inv in H.
    set (z := Znearest _ _) in *. split.
    - assert (A: -1 < IZR z) by lra. apply (lt_IZR (-1)) in A. lia.
    - assert (A: IZR z < IZR (131072 * p + 1)) by (rewrite plus_IZR; lra). apply lt_IZR in A. lia. }
  assert (W: forall k, (Z.abs k <= 262144 * p)%Z -> Ztrunc (back p k) = k) by (intros k Hk; rewrite (back_pow2 p n k Hp Hn eq_refl Hk); apply Ztrunc_IZR).
  destruct (fe_travel acos cfg Hc delta radius pl rot v g Hg p sa sb ea eb jc G Ha Far (W sa ltac:(lia)) (W sb ltac:(lia)) (W (len_steps sa sb) ltac:(lia)) l F Hl) as [T1 T2].
  split; [exact T1|]. split; [exact T2|]. rewrite (fe_third acos cfg Hc delta radius pl rot v g Hg p sa sb ea eb jc G l Hl).
  destruct (axis_c_cfg cfg Hc pl) as [t A]. assert (A' := proj1 A). rewrite (back_pow2 _ nc _ A' Hnc Ec) by lia. rewrite Zceil_IZR. lia.
Qed.
(** The arcs of the machine. *)
Lemma arc_facts_request acos cfg (Hc : good_cfg cfg) (g : circular_gen (F64 acos)) : arc_facts acos cfg g ->
  axis_a (c_plane g) (ppm cfg) = axis_b (c_plane g) (ppm cfg) ->
  exists radius rot v sa sb ea eb jc, make_circular cfg (c_delta g) radius (c_plane g) rot v = Ok g /\
    float_arc cfg (c_plane g) (c_delta g) radius (axis_a (c_plane g) (ppm cfg)) sa sb ea eb jc.
Proof.
  intros [rr rot v M V ka kb ja jb jc Dka Dkb Dja Djb Djc Ska Skb Sja Sjb Sjc Me Mk] E.
  destruct (axis_a_cfg cfg Hc (c_plane g)) as (t & A). destruct (axis_c_cfg cfg Hc (c_plane g)) as (tc & C).
  rewrite <- E in Dkb, Djb, Skb, Sjb.
  exists rr, rot, v, (- ka)%Z, (- kb)%Z, (- ka + ja)%Z, (- kb + jb)%Z, jc. split; [exact Mk|].
  split; try (rewrite ?Z.opp_involutive; apply (nearest_dec _ _ _ _ A)); try (apply (nearest_dec _ _ _ _ C)); try assumption; try reflexivity; try (symmetry; exact E); try lia.
  - now replace (- ka + ja - - ka)%Z with ja by lia.
  - now replace (- kb + jb - - kb)%Z with jb by lia.
Qed.
