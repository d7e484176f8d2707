(** Where the motors are during a straight move. *)
From Coq Require Import ZArith Bool Lia List Reals Lra.
From Flocq Require Import Core BinarySingleNaN.
From Verif Require Import PyBase PyNum PyFloatFacts Config Coordinates Pulses PulseSpec LinearGen LinearReal LinearRun LinearLaw ArcSpec ArcRun.
From Coq Require Import List.
From Flocq Require Import Core.
Import ListNotations.
Local Open Scope Z_scope.

Section Travel.
Context {N : PyNum}.
Variable cfg : config.
Variable g : linear_gen N.

Definition line_pos (m : motor) (i : Z) : Z := qat m (l_dir g) * i.
Lemma line_interp_inv i d t : linear_interp cfg g i = Ok (d, t) ->
  d = l_dir g /\ forall m x, qat m t = Some x -> qat m i < qat m (l_total g).
Proof.
  assert (T: forall a b c (v : N) o x, linear_time a b c v = Ok o -> o = Some x -> a < c).
  { intros a b c v o x. unfold linear_time. destruct (Z.eqb_spec c 0), (Z.leb_spec c a); cbn [orb]; intros E ->; try discriminate E; lia. }
  unfold linear_interp. intros H.
  destruct (linear_time (qx i) _ _ _) eqn:E1; cbn [rbind] in H; [|discriminate]. destruct (linear_time (qy i) _ _ _) eqn:E2; cbn [rbind] in H; [|discriminate].
  destruct (linear_time (qz i) _ _ _) eqn:E3; cbn [rbind] in H; [|discriminate]. destruct (linear_time (qe i) _ _ _) eqn:E4; cbn [rbind] in H; [|discriminate].
  injection H as <- <-. split; [reflexivity|]. intros [] x; cbn; intros ->; eauto.
Qed.
Lemma line_interp_none i d t m : linear_interp cfg g i = Ok (d, t) -> qat m t = None -> 0 <= qat m i -> qat m (l_total g) <= qat m i.
Proof.
  assert (T: forall a b c (v : N), 0 <= a -> linear_time a b c v = Ok None -> c <= a).
  { intros a b c v A. unfold linear_time. destruct (Z.eqb_spec c 0), (Z.leb_spec c a); cbn [orb]; try lia.
    destruct (div _ _); cbn [rbind]; [|discriminate]. destruct (div _ _); cbn [rbind]; discriminate. }
  unfold linear_interp. intros H.
  destruct (linear_time (qx i) _ _ _) eqn:E1; cbn [rbind] in H; [|discriminate]. destruct (linear_time (qy i) _ _ _) eqn:E2; cbn [rbind] in H; [|discriminate].
  destruct (linear_time (qz i) _ _ _) eqn:E3; cbn [rbind] in H; [|discriminate]. destruct (linear_time (qe i) _ _ _) eqn:E4; cbn [rbind] in H; [|discriminate].
  injection H as <- <-. destruct m; cbn; intros -> ?; eauto.
Qed.
Lemma line_follows : follows cfg (GLinear g) line_pos.
Proof.
  intros i d t _ H m x _. cbn [gen_interp] in H. apply line_interp_inv in H. destruct H as [-> _]. unfold line_pos. lia.
Qed.
Definition line_counts (s : iter_state N) : Prop := forall m, qat m (it_i s) <= Z.max 0 (qat m (l_total g)).
Lemma line_counts_next s it s' : line_counts s -> next cfg (GLinear g) s = Ok (Some (it, s')) -> line_counts s'.
Proof.
  intros C H. apply next_pulse in H. destruct H as (d & t & Hi & [(_ & E)|[(_ & _ & E)|(Hd & x & am & q & s2 & Hm & Ha & E & Hd' & Hc & Hf)]]).
  - injection E as -> ->. exact C.
  - discriminate E.
  - injection E as -> ->. cbn [gen_interp] in Hi. apply line_interp_inv in Hi. destruct Hi as [_ B].
    intros m. specialize (Hf m). apply fire_inv in Hf. destruct Hf as [(_ & -> & _)|(y & Ey & _ & _ & ->)]; [apply C|]. apply B in Ey. lia.
Qed.
Lemma items_line_counts n l s : tracks cfg line_pos l s -> line_counts s ->
  exists s', tracks cfg line_pos (l ++ items_from cfg (GLinear g) n s) s' /\ line_counts s'.
Proof.
  revert l s. induction n as [|n IH]; intros l s T C; cbn [items_from].
  - exists s. now rewrite app_nil_r.
  - destruct (next cfg (GLinear g) s) as [[[it s']|]|e] eqn:E; try (exists s; now rewrite app_nil_r).
    destruct (IH (l ++ [it]) s' (tracks_next _ _ _ _ _ _ _ line_follows T E) (line_counts_next _ _ _ C E)) as (s2 & H). exists s2. rewrite <- app_assoc in H. exact H.
Qed.
Lemma line_travel n m : let l := items cfg (GLinear g) n in
  travel cfg m l = qat m (l_dir g) * steps m l /\ 0 <= steps m l <= Z.max 0 (qat m (l_total g)).
Proof.
  intros l. split.
  - unfold l. rewrite (items_travel cfg (GLinear g) line_pos n m line_follows). unfold line_pos. lia.
  - split; [apply steps_nonneg|]. unfold l, items. destruct (iter_start cfg (GLinear g)) as [s|e] eqn:E; [|cbn; lia].
    assert (C: line_counts s).
    { unfold iter_start in E. destruct (div _ _) as [c|]; cbn [rbind] in E; [|discriminate]. injection E as <-. intros k. cbn [it_i]. destruct k; cbn; lia. }
    destruct (items_line_counts n [] s (tracks_start _ _ _ _ E) C) as (s' & [T _ _] & C1). cbn [app] in T. rewrite T. apply C1.
Qed.
Lemma line_complete l m : completes cfg (GLinear g) l -> travel cfg m l = qat m (l_dir g) * Z.max 0 (qat m (l_total g)).
Proof.
  intros H. destruct (completes_travel _ _ _ _ line_follows H) as (_ & i & d & t & Hi & Hm). cbn [gen_interp] in Hi.
  destruct (completes_items _ _ _ H) as [n <-]. destruct (line_travel n m) as [T B]. rewrite T. f_equal.
  destruct (Hm m) as [E1 E2]. apply (line_interp_none _ _ _ m Hi) in E2; [|rewrite E1; apply steps_nonneg]. pose proof (steps_nonneg m (items cfg (GLinear g) n)). lia.
Qed.
End Travel.

(* ---------- C30 ---------- *)
Local Open Scope R_scope.
Lemma travel_exact : forall cfg delta v g l m,
  sane_cfg cfg -> (exists m, qat m delta <> 0) -> 0 < v -> emits (N:=RN) cfg delta v g l ->
  travel cfg m l = ((if Rlt_dec (qat m delta) 0 then -1 else 1) * ZnearestE (Rabs (qat m delta) * IZR (qat m (ppm cfg))))%Z.
Proof.
  intros cfg delta v g l m Hc Hd Hv He. destruct (emits_steps cfg Hc delta Hd v Hv g l He) as (l' & El & _ & S).
  destruct He as [Hg Hr]. destruct (make_linear_R cfg Hc delta Hd v Hv) as (g' & kap & kap0 & acc & lin & c & E & P).
  rewrite Hg in E. injection E as <-. destruct (completes_items _ _ _ Hr) as [n En]. destruct (line_travel cfg g n m) as [T _].
  rewrite En in T. rewrite T, (pf_dir _ _ _ _ _ _ _ _ _ P), qat_qmap. f_equal.
  rewrite El. change (steps m (Dir (N:=RN) ?d :: l')) with (steps m l'). apply S.
Qed.
Lemma copysign_sign (x : f64) p n : f_rnd (f_mul (f_rnd10 (Babs x)) (f_ofZ p)) = Ok n ->
  (f_copysign1 x * n = (if Rlt_dec (val x) 0 then -1 else 1) * n)%Z.
Proof.
  intros Hn. destruct x as [s|s| |s mx ex B].
  - change (Babs (B754_zero s)) with (B754_zero (prec:=53) (emax:=1024) false) in Hn. cbn [f_rnd10] in Hn.
    assert (Z0: n = 0%Z).
    { destruct (f_ofZ p) as [s2|s2| |s2 m2 e2 B2]; try discriminate Hn; exact (eq_sym (f_equal (fun r => match r with Ok z => z | Raise _ => 0%Z end) Hn)). }
    rewrite Z0. lia.
  - exfalso. cbn in Hn. destruct (f_ofZ p); discriminate Hn.
  - exfalso. cbn in Hn. destruct (f_ofZ p); discriminate Hn.
  - f_equal. unfold f_copysign1. cbn [Bsign]. destruct (Rlt_dec _ 0) as [L|L]; destruct s; try reflexivity; exfalso.
    + apply (Rlt_not_le _ _ L). cbn. apply F2R_ge_0. cbn. lia.
    + apply L. cbn. apply F2R_lt_0. cbn. lia.
Qed.
Lemma travel_float : forall acos cfg (delta : quad f64) (v : f64) g l m,
  (forall m, 0 <= qat m (ppm cfg))%Z -> emits (N:=F64 acos) cfg delta v g l ->
  exists n, f_rnd (f_mul (f_rnd10 (Babs (qat m delta))) (f_ofZ (qat m (ppm cfg)))) = Ok n /\ (0 <= n)%Z /\
    travel cfg m l = ((if Rlt_dec (val (qat m delta)) 0 then -1 else 1) * n)%Z.
Proof.
  intros acos cfg delta v g l m Hp [Hg Hr]. destruct (make_linear_counts acos cfg delta v g Hg) as [Hn Hdir].
  specialize (Hn m). exists (qat m (l_total g)). split; [exact Hn|]. assert (P := count_nonneg _ _ _ (Hp m) Hn). split; [exact P|].
  rewrite (line_complete cfg g l m Hr), Hdir, qat_qmap. replace (Z.max 0 (qat m (l_total g))) with (qat m (l_total g)) by lia.
  exact (copysign_sign _ _ _ Hn).
Qed.
