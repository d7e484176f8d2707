(** Generators that cannot come to their end, and how the Examples and the
    refutations about arcs find a generator among the events. *)
From Coq Require Import String ZArith Bool List Lia FunctionalExtensionality Reals.
From Flocq Require Import Core BinarySingleNaN.
From Verif Require Import PyBase PyNum PyFloatFacts Config Coordinates Pulses PulseSpec LinearGen GCode GMachine ArcSpec ArcRun.
From Coq Require Import List.
Import ListNotations.
Local Open Scope Z_scope.

Section Fail.
Context {N : PyNum}.
Variable cfg : config.
Variable g : gen N.
Variable m : motor.
Variable k : Z.
(** The motor needs more than [k] steps, and the step after [k] cannot be computed. *)
Hypothesis Hmore : forall i d t, gen_interp cfg g i = Ok (d, t) -> qat m t = None -> k < qat m i.
Hypothesis Hfail : forall i d t, gen_interp cfg g i = Ok (d, t) -> qat m i <> k.

Lemma iterate_fails fuel s l : qat m (it_i s) <= k -> iterate cfg fuel g s <> Finished l.
Proof.
  revert s l. induction fuel as [|f IH]; intros s l Hk H; [discriminate H|]. cbn [iterate] in H.
  destruct (next cfg g s) as [[[it s']|]|e] eqn:E; [| |discriminate H]; apply next_pulse in E; destruct E as (d & t & Hi & K).
  - destruct (iterate cfg f g s') as [l'| |] eqn:E2; try discriminate H. refine (IH s' l' _ E2).
    destruct K as [(_ & K)|[(_ & _ & K)|(_ & x & am & q & s2 & _ & _ & K & _ & _ & Hf)]].
    + injection K as _ ->. exact Hk.
    + discriminate K.
    + injection K as _ ->. specialize (Hf m). apply fire_inv in Hf. assert (X := Hfail _ _ _ Hi).
      destruct Hf as [(_ & -> & _)|(y & _ & _ & _ & ->)]; lia.
  - destruct K as [(_ & K)|[(_ & Hn & _)|(_ & x & am & q & s2 & _ & _ & K & _)]]; try discriminate K.
    assert (X := Hmore _ _ _ Hi (Hn m)). lia.
Qed.
Lemma never_completes l : 0 <= k -> ~ completes cfg g l.
Proof.
  intros Hk [fuel H]. unfold run_gen in H. destruct (iter_start cfg g) as [s|e] eqn:E; [|discriminate H].
  revert H. apply iterate_fails. unfold iter_start in E. destruct (div _ _) as [c|]; cbn [rbind] in E; [|discriminate]. injection E as <-.
  destruct m; cbn; exact Hk.
Qed.
End Fail.

Section FailArc.
Context {N : PyNum}.
Definition raises {A} (r : res A) : bool := match r with Ok _ => false | Raise _ => true end.
(** An arc whose (k+1)-th step of the first (second) plane axis raises. *)
Definition breaks_a (cfg : config) (k : Z) (g : circular_gen N) : bool :=
  (0 <=? k) && (k <? c_iterations_a g) && raises (circular_a g k (qat (motor_a (c_plane g)) (ppm cfg))).
Definition breaks_b (cfg : config) (k : Z) (g : circular_gen N) : bool :=
  (0 <=? k) && (k <? c_iterations_b g) && raises (circular_b g k (qat (motor_b (c_plane g)) (ppm cfg))).
Lemma breaks_a_never cfg k g l : breaks_a cfg k g = true -> ~ completes cfg (GCircular g) l.
Proof.
  intros H. apply andb_prop in H. destruct H as [H H3]. apply andb_prop in H. destruct H as [H1 H2]. apply Z.leb_le in H1. apply Z.ltb_lt in H2.
  apply (never_completes cfg (GCircular g) (motor_a (c_plane g)) k); [| |exact H1].
  - intros i d t Hi Ht. cbn [gen_interp] in Hi. apply circular_interp_inv in Hi. destruct Hi as (Ha & _). apply circular_a_inv in Ha. rewrite Ht in Ha. lia.
  - intros i d t Hi E. cbn [gen_interp] in Hi. apply circular_interp_inv in Hi. destruct Hi as (Ha & _). rewrite E in Ha. rewrite Ha in H3. discriminate H3.
Qed.
Lemma breaks_b_never cfg k g l : breaks_b cfg k g = true -> ~ completes cfg (GCircular g) l.
Proof.
  intros H. apply andb_prop in H. destruct H as [H H3]. apply andb_prop in H. destruct H as [H1 H2]. apply Z.leb_le in H1. apply Z.ltb_lt in H2.
  apply (never_completes cfg (GCircular g) (motor_b (c_plane g)) k); [| |exact H1].
  - intros i d t Hi Ht. cbn [gen_interp] in Hi. apply circular_interp_inv in Hi. destruct Hi as (_ & Ha & _). apply circular_b_inv in Ha. rewrite Ht in Ha. lia.
  - intros i d t Hi E. cbn [gen_interp] in Hi. apply circular_interp_inv in Hi. destruct Hi as (_ & Ha & _). rewrite E in Ha. rewrite Ha in H3. discriminate H3.
Qed.

Definition room_b (k : Z) (g : circular_gen N) : bool :=
  (c_iterations_a g <=? (6 + c_dir_a g) * c_radius_a_pulses g - c_dir_a g * c_start_a_pulses g + k) &&
  (c_iterations_b g <=? (6 + c_dir_b g) * c_radius_b_pulses g - c_dir_b g * c_start_b_pulses g + k).
Lemma room_b_spec k g : room_b k g = true -> room_within k g.
Proof. intros H. apply andb_prop in H. destruct H as [H1 H2]. apply Z.leb_le in H1, H2. split; assumption. Qed.

(** A circular generator among the events that passes a test. *)
Definition arc_with (test : circular_gen N -> bool) (es : list (event N)) : bool :=
  existsb (fun ev => match ev with EMove (GCircular g) => test g | _ => false end) es.
Lemma arc_with_spec test es : arc_with test es = true -> exists g, In (EMove (GCircular g)) es /\ test g = true.
Proof.
  intros H. apply existsb_exists in H. destruct H as (ev & Hin & H). destruct ev; try discriminate H. destruct g as [g|g]; try discriminate H. eauto.
Qed.
End FailArc.

(* ---------- values of acos ---------- *)
(** Equality of floating point numbers, representation included. *)
Definition sf_same (x y : SpecFloat.spec_float) : bool :=
  match x, y with
  | SpecFloat.S754_zero s, SpecFloat.S754_zero t => Bool.eqb s t
  | SpecFloat.S754_infinity s, SpecFloat.S754_infinity t => Bool.eqb s t
  | SpecFloat.S754_nan, SpecFloat.S754_nan => true
  | SpecFloat.S754_finite s m e, SpecFloat.S754_finite t n f => Bool.eqb s t && Pos.eqb m n && Z.eqb e f
  | _, _ => false
  end.
Lemma sf_same_eq x y : sf_same x y = true -> x = y.
Proof.
  destruct x, y; intros H; try discriminate H; try reflexivity; cbn in H.
  - apply eqb_prop in H. now subst.
  - apply eqb_prop in H. now subst.
  - apply andb_prop in H. destruct H as [H H3]. apply andb_prop in H. destruct H as [H1 H2].
    apply eqb_prop in H1. apply Pos.eqb_eq in H2. apply Z.eqb_eq in H3. now subst.
Qed.
(** acos with the given values at some points. *)
Fixpoint acos_at (tbl : list (f64 * f64)) (acos : f64 -> f64) (x : f64) : f64 :=
  match tbl with
  | [] => acos x
  | (a, b) :: r => if sf_same (B2SF a) (B2SF x) then b else acos_at r acos x
  end.
Lemma acos_at_eq tbl acos : Forall (fun p => acos (fst p) = snd p) tbl -> acos_at tbl acos = acos.
Proof.
  intros H. apply functional_extensionality. intros x. induction H as [|[a b] r H _ IH]; [reflexivity|]. cbn [acos_at].
  destruct (sf_same (B2SF a) (B2SF x)) eqn:E; [|exact IH]. apply sf_same_eq, B2SF_inj in E. subst x. symmetry. exact H.
Qed.
(** The double m / 2^e. *)
Definition dbl (m : Z) (e : nat) : f64 := f_ratio (m <? 0) (Z.abs m) (Pos.shiftl_nat 1 e).
