(** Proofs about DmaGpio.v. *)
From Coq Require Import ZArith Bool Lia List.
From Verif Require Import PyBase Dma DmaGpio DmaSpec.
Import ListNotations.
Local Open Scope Z_scope.

Lemma mset_same m a v : 0 <= v < 2 ^ 32 -> mset m a v a = v.
Proof. intros H. unfold mset. rewrite Z.eqb_refl. now apply Z.mod_small. Qed.
Lemma mset_other m a v x : x <> a -> mset m a v x = m x.
Proof. intros H. unfold mset. now destruct (Z.eqb_spec x a). Qed.
Lemma is_u32_ok v : is_u32 v = true <-> 0 <= v < 2 ^ 32.
Proof. unfold is_u32. rewrite andb_true_iff, Z.leb_le, Z.ltb_lt. tauto. Qed.

(** Words [l] from address [a] on. *)
Fixpoint holds (m : mem) (a : Z) (l : list Z) : Prop :=
  match l with
  | [] => True
  | v :: r => m a = v /\ holds m (a + 4) r
  end.
Lemma holds_app m l1 l2 : forall a, holds m a (l1 ++ l2) <-> holds m a l1 /\ holds m (a + 4 * Z.of_nat (length l1)) l2.
Proof.
  induction l1 as [|v l1 IH]; intros a; cbn [app holds length].
  - replace (a + 4 * Z.of_nat 0) with a by lia. tauto.
  - rewrite IH. replace (a + 4 + 4 * Z.of_nat (length l1)) with (a + 4 * Z.of_nat (S (length l1))) by lia. tauto.
Qed.
Lemma holds_agree m m' l : forall a, (forall x, a <= x < a + 4 * Z.of_nat (length l) -> m' x = m x) -> holds m a l -> holds m' a l.
Proof.
  induction l as [|v l IH]; intros a H; cbn [holds]; [auto|]. cbn [length] in H.
  intros [E K]. split; [rewrite H by lia; exact E|]. apply IH; [|exact K]. intros x Hx. apply H. lia.
Qed.

(** pack writes only the words it was given. *)
Lemma pack_frame l : forall m a x, (x < a \/ a + 4 * Z.of_nat (length l) <= x) -> fst (pack m a l) x = m x.
Proof.
  induction l as [|v l IH]; intros m a x Hx; [reflexivity|]. cbn [pack length] in *.
  destruct (is_u32 v); [|reflexivity]. rewrite IH by lia. apply mset_other. lia.
Qed.
Lemma pack_ok l : forall m a, Forall (fun v => 0 <= v < 2 ^ 32) l ->
  snd (pack m a l) = Ok tt /\ holds (fst (pack m a l)) a l.
Proof.
  induction l as [|v l IH]; intros m a H; [split; [reflexivity|exact I]|]. inversion H; subst. cbn [pack holds].
  replace (is_u32 v) with true by (symmetry; now apply is_u32_ok).
  destruct (IH (mset m a v) (a + 4)) as [E K]; [assumption|]. split; [exact E|]. split; [|exact K].
  rewrite pack_frame by lia. now apply mset_same.
Qed.
Lemma pack_inv l : forall m a, snd (pack m a l) = Ok tt -> holds (fst (pack m a l)) a l.
Proof.
  induction l as [|v l IH]; intros m a; cbn [pack holds]; [auto|]. destruct (is_u32 v) eqn:E; [|discriminate].
  intros K. split; [|now apply IH]. rewrite pack_frame by lia. apply mset_same, is_u32_ok, E.
Qed.

Section Buffer.
Variable extra : bool.
Variable base size : Z.
Notation add := (add base size).
Notation adds := (adds base size).
Notation finalize_stream := (finalize_stream base size).

(** Words of one request at bus address [a] whose last block continues at [nxt]. *)
Definition words_of (a nxt : Z) (r : req) : list Z :=
  match r with
  | Pulse mask us =>
      [pulse_info; a + 24; pulse_destination; pulse_length; pulse_stride; a + 32; mask; 0;
       delay_info; 0; pwm_fifo; Z.shiftl us 4; 0; a + 64; 0; 0;
       pulse_info; a + 88; pulse_destination; pulse_length; pulse_stride; nxt; 0; mask]
  | Delay us => [delay_info; a + 24; pwm_fifo; Z.shiftl us 4; 0; nxt; 0; 0]
  | SetClear s c => [pulse_info; a + 24; pulse_destination; pulse_length; pulse_stride; nxt; s; c]
  end.
Lemma words_len a nxt r : 4 * Z.of_nat (length (words_of a nxt r)) = bytes_of r.
Proof. destruct r; reflexivity. Qed.

Lemma add_put d r : d_addr d + bytes_of r <= size ->
  add d r = put base d (words_of (base + d_addr d) (base + d_addr d + bytes_of r) r) (d_addr d + bytes_of r).
Proof.
  intros H. destruct r; cbn [add bytes_of words_of] in *; unfold add_pulse, add_delay, add_set_clear;
    (match goal with |- context [?x >? size] => destruct (Z.gtb_spec x size) as [K|K] end); try lia; cbv zeta;
    (apply f_equal2; [|lia]); repeat (apply f_equal2; [reflexivity || lia|]); reflexivity.
Qed.
Lemma add_full d r : size < d_addr d + bytes_of r -> add d r = (d, Raise MemoryError).
Proof.
  intros H. destruct r; cbn [add bytes_of] in *; unfold add_pulse, add_delay, add_set_clear;
    (match goal with |- context [?x >? size] => destruct (Z.gtb_spec x size) as [K|K] end); try lia; reflexivity.
Qed.

Lemma add_frame d r x : 0 <= d_addr d -> (x < base + d_addr d \/ base + d_addr d + bytes_of r <= x \/ base + size <= x) -> d_mem (fst (add d r)) x = d_mem d x.
Proof.
  intros H Hx. destruct (Z_le_gt_dec (d_addr d + bytes_of r) size) as [L|L].
  - rewrite add_put by lia. unfold put.
    set (w := words_of _ _ r).
    assert (P: fst (pack (d_mem d) (base + d_addr d) w) x = d_mem d x).
    { apply pack_frame. unfold w. rewrite words_len. lia. }
    destruct (pack (d_mem d) (base + d_addr d) w) as [m' [u|e]]; exact P.
  - rewrite add_full by lia. reflexivity.
Qed.
Lemma add_addr d r : d_addr (fst (add d r)) = match snd (add d r) with Ok _ => d_addr d + bytes_of r | Raise _ => d_addr d end.
Proof.
  destruct (Z_le_gt_dec (d_addr d + bytes_of r) size) as [L|L].
  - rewrite add_put by lia. unfold put. destruct (pack _ _ _) as [m' [u|e]]; reflexivity.
  - rewrite add_full by lia. reflexivity.
Qed.
Lemma add_fits d r : snd (add d r) = Ok tt -> d_addr d + bytes_of r <= size.
Proof. intros H. destruct (Z_le_gt_dec (d_addr d + bytes_of r) size); [assumption|]. rewrite add_full in H by lia. discriminate. Qed.
Lemma add_holds d r : snd (add d r) = Ok tt ->
  holds (d_mem (fst (add d r))) (base + d_addr d) (words_of (base + d_addr d) (base + d_addr d + bytes_of r) r).
Proof.
  intros H. pose proof (add_fits d r H) as L. rewrite add_put in * by exact L. unfold put in *.
  set (w := words_of _ _ r) in *. pose proof (pack_inv w (d_mem d) (base + d_addr d)) as P.
  destruct (pack (d_mem d) (base + d_addr d) w) as [m' [u|e]]; cbn in *; [|discriminate]. apply P. now destruct u.
Qed.

Lemma u32_intro v : 0 <= v < 2 ^ 32 -> 0 <= v < 2 ^ 32.
Proof. auto. Qed.
Lemma words_ok a nxt r : sane r -> 0 < a -> a + bytes_of r < 2 ^ 32 -> 0 <= nxt < 2 ^ 32 ->
  Forall (fun v => 0 <= v < 2 ^ 32) (words_of a nxt r).
Proof.
  intros H Ha Hb Hn. unfold sane, mask_ok in H.
  destruct r; cbn [words_of bytes_of] in *;
    assert (D: 0 <= delay_info < 2 ^ 32) by (cbv; split; [discriminate|reflexivity]);
    assert (P: 0 <= pulse_info < 2 ^ 32) by (cbv; split; [discriminate|reflexivity]);
    assert (F: 0 <= pwm_fifo < 2 ^ 32) by (cbv; split; [discriminate|reflexivity]);
    assert (G: 0 <= pulse_destination < 2 ^ 32) by (cbv; split; [discriminate|reflexivity]);
    assert (L: 0 <= pulse_length < 2 ^ 32) by (cbv; split; [discriminate|reflexivity]);
    assert (S: 0 <= pulse_stride < 2 ^ 32) by (cbv; split; [discriminate|reflexivity]);
    repeat (apply Forall_cons; [rewrite ?Z.shiftl_mul_pow2 by lia; lia|]); apply Forall_nil.
Qed.
Lemma add_ok d r : buffer_ok base size -> sane r -> 0 <= d_addr d -> d_addr d + bytes_of r <= size -> snd (add d r) = Ok tt.
Proof.
  intros (B1 & B2 & B3 & _) H Ha L. rewrite add_put by exact L. unfold put.
  assert (N: 0 < bytes_of r) by (destruct r; cbn; lia).
  destruct (pack_ok (words_of (base + d_addr d) (base + d_addr d + bytes_of r) r) (d_mem d) (base + d_addr d)) as [E _].
  - apply words_ok; try assumption; lia.
  - destruct (pack _ _ _) as [m' [u|e]]; cbn in *; [reflexivity|discriminate].
Qed.

(** The image of a list of requests; the last block continues at [fin]. *)
Fixpoint image (a fin : Z) (l : list req) : list Z :=
  match l with
  | [] => []
  | r :: t => match t with
              | [] => words_of a fin r
              | _ :: _ => words_of a (a + bytes_of r) r ++ image (a + bytes_of r) fin t
              end
  end.
Lemma bytes_pos r : 32 <= bytes_of r.
Proof. destruct r; cbn; lia. Qed.
Lemma bytes_nonneg l : 0 <= bytes l.
Proof. induction l as [|r l IH]; cbn; [lia|]. pose proof (bytes_pos r). unfold bytes in IH. lia. Qed.
Lemma bytes_cons r l : bytes (r :: l) = bytes_of r + bytes l.
Proof. reflexivity. Qed.
Lemma image_len l : forall a fin, 4 * Z.of_nat (length (image a fin l)) = bytes l.
Proof.
  induction l as [|r l IH]; intros a fin; [reflexivity|]. rewrite bytes_cons. destruct l as [|r' l].
  - cbn [image]. rewrite words_len. cbn. lia.
  - change (image a fin (r :: r' :: l)) with (words_of a (a + bytes_of r) r ++ image (a + bytes_of r) fin (r' :: l)).
    rewrite app_length, Nat2Z.inj_add, Z.mul_add_distr_l, words_len, IH. reflexivity.
Qed.

Lemma adds_spec l : forall d, buffer_ok base size -> Forall sane l -> 0 <= d_addr d -> d_addr d + bytes l <= size ->
  snd (adds d l) = Ok tt /\ d_addr (fst (adds d l)) = d_addr d + bytes l /\
  (forall x, x < base + d_addr d \/ base + d_addr d + bytes l <= x -> d_mem (fst (adds d l)) x = d_mem d x) /\
  holds (d_mem (fst (adds d l))) (base + d_addr d) (image (base + d_addr d) (base + d_addr d + bytes l) l).
Proof.
  induction l as [|r l IH]; intros d B HS Ha HL.
  - cbn. repeat split; auto. lia.
  - rewrite bytes_cons in *. inversion HS as [|? ? Sr Sl]; subst. pose proof (bytes_nonneg l). pose proof (bytes_pos r).
    pose proof (add_ok d r B Sr Ha ltac:(lia)) as E. pose proof (add_addr d r) as A. rewrite E in A.
    pose proof (add_holds d r E) as K. pose proof (fun x => add_frame d r x Ha) as F.
    cbn [DmaGpio.adds]. destruct (add d r) as [d1 [u|e]]; [|discriminate]. cbn [fst snd] in *.
    destruct (IH d1 B Sl ltac:(lia) ltac:(lia)) as (E' & A' & F' & K').
    split; [exact E'|]. split; [lia|]. split.
    + intros x Hx. rewrite F' by lia. apply F. lia.
    + rewrite A in *. destruct l as [|r' l].
      * cbn [image DmaGpio.adds fst] in *. replace (base + d_addr d + (bytes_of r + bytes [])) with (base + d_addr d + bytes_of r) by (cbn; lia). exact K.
      * change (image (base + d_addr d) (base + d_addr d + (bytes_of r + bytes (r' :: l))) (r :: r' :: l))
          with (words_of (base + d_addr d) (base + d_addr d + bytes_of r) r ++ image (base + d_addr d + bytes_of r) (base + d_addr d + (bytes_of r + bytes (r' :: l))) (r' :: l)).
        apply holds_app. rewrite words_len. split.
        -- eapply holds_agree; [|exact K]. intros x Hx. apply F'. rewrite words_len in Hx. lia.
        -- replace (base + (d_addr d + bytes_of r)) with (base + d_addr d + bytes_of r) in K' by lia.
           replace (base + d_addr d + (bytes_of r + bytes (r' :: l))) with (base + d_addr d + bytes_of r + bytes (r' :: l)) by lia. exact K'.
Qed.

(** Redirecting the last block. *)
Lemma words_redirect a nxt v r m : 0 <= v < 2 ^ 32 -> holds m a (words_of a nxt r) -> holds (mset m (a + bytes_of r - 12) v) a (words_of a v r).
Proof.
  intros Hv. destruct r; cbn [words_of holds bytes_of]; intros H;
    repeat match type of H with _ /\ _ => let H1 := fresh in destruct H as [H1 H] end;
    repeat apply conj; try exact I; first [rewrite mset_other by lia; assumption | idtac];
    match goal with |- mset _ ?k _ ?k' = _ => replace k' with k by lia end; now apply mset_same.
Qed.
Lemma image_redirect v l : 0 <= v < 2 ^ 32 -> forall m a fin, l <> [] -> holds m a (image a fin l) ->
  holds (mset m (a + bytes l - 12) v) a (image a v l).
Proof.
  intros Hv. induction l as [|r l IH]; intros m a fin N H; [congruence|]. rewrite bytes_cons. destruct l as [|r' l].
  - cbn [image] in *. replace (a + (bytes_of r + bytes []) - 12) with (a + bytes_of r - 12) by (cbn; lia). eapply words_redirect; eassumption.
  - change (image a fin (r :: r' :: l)) with (words_of a (a + bytes_of r) r ++ image (a + bytes_of r) fin (r' :: l)) in H.
    change (image a v (r :: r' :: l)) with (words_of a (a + bytes_of r) r ++ image (a + bytes_of r) v (r' :: l)).
    apply holds_app in H. apply holds_app. rewrite words_len in *. destruct H as [H1 H2]. split.
    + eapply holds_agree; [|exact H1]. intros x Hx. apply mset_other. rewrite words_len in Hx. pose proof (bytes_pos r'). pose proof (bytes_nonneg l).
      rewrite bytes_cons. lia.
    + replace (a + (bytes_of r + bytes (r' :: l)) - 12) with (a + bytes_of r + bytes (r' :: l) - 12) by lia. eapply IH; [discriminate|exact H2].
Qed.

(* ---------- one block ---------- *)
Lemma transfer_delay m a src us nxt rest : 0 <= us < 2 ^ 26 ->
  holds m a (delay_info :: src :: pwm_fifo :: Z.shiftl us 4 :: 0 :: nxt :: rest) ->
  transfer extra m a = [Paced 0x7E20C018 (16 * us)] /\ next_cb m a = nxt.
Proof.
  intros Hu H. cbn [holds] in H. destruct H as (H0 & H1 & H2 & H3 & H4 & H5 & _).
  replace (a + 4 + 4) with (a + 8) in * by lia. replace (a + 8 + 4) with (a + 12) in * by lia. replace (a + 12 + 4) with (a + 16) in * by lia. replace (a + 16 + 4) with (a + 20) in * by lia.
  split; [|exact H5]. unfold transfer. rewrite H0, H2, H3.
  change (Z.testbit delay_info 7) with false. change (Z.testbit delay_info 6) with true. cbv iota.
  rewrite Z.shiftl_mul_pow2 by lia. change (2 ^ 4) with 16. rewrite Z.mod_small by lia. change pwm_fifo with 0x7E20C018. now rewrite (Z.mul_comm us).
Qed.
Lemma transfer_set_clear m a s c nxt : 
  holds m a [pulse_info; a + 24; pulse_destination; pulse_length; pulse_stride; nxt; s; c] ->
  transfer extra m a = Store 0x7E20001C s :: Store 0x7E200028 c :: (if extra then [Store 0x7E200034 (m (a + 32))] else []) /\ next_cb m a = nxt.
Proof.
  intros H. cbn [holds] in H. destruct H as (H0 & H1 & H2 & H3 & H4 & H5 & H6 & H7 & _).
  replace (a + 4 + 4) with (a + 8) in * by lia. replace (a + 8 + 4) with (a + 12) in * by lia. replace (a + 12 + 4) with (a + 16) in * by lia.
  replace (a + 16 + 4) with (a + 20) in * by lia. replace (a + 20 + 4) with (a + 24) in * by lia. replace (a + 24 + 4) with (a + 28) in * by lia.
  split; [|exact H5]. unfold transfer. rewrite H0, H1, H2, H3, H4.
  change (Z.testbit pulse_info 7) with false. change (Z.testbit pulse_info 6) with false. change (Z.testbit pulse_info 1) with true.
  change (Z.testbit pulse_info 8) with false. change (Z.testbit pulse_info 4) with false. cbv iota zeta.
  change (s16 (pulse_stride mod 2 ^ 16)) with 4. change (s16 (pulse_stride / 2 ^ 16)) with 12.
  change (words (pulse_length mod 2 ^ 30 mod 2 ^ 16)) with 1%nat. change (Z.to_nat (pulse_length mod 2 ^ 30 / 2 ^ 16)) with 2%nat.
  change pulse_destination with 0x7E20001C.
  destruct extra; cbn [Nat.add rows_of row app after].
  - replace (a + 24 + 4) with (a + 28) by lia. replace (a + 28 + 4) with (a + 32) by lia. rewrite H6, H7. reflexivity.
  - replace (a + 24 + 4) with (a + 28) by lia. rewrite H6, H7. reflexivity.
Qed.

(** Seen of what one block does, appended to the rest. *)
Lemma seen_set_clear t s c v l :
  seen t ((Store 0x7E20001C s :: Store 0x7E200028 c :: (if extra then [Store 0x7E200034 v] else [])) ++ l) = rise t s ++ fall t c ++ seen t l.
Proof. destruct extra; cbn [app seen Z.eqb Pos.eqb]; reflexivity. Qed.
Lemma seen_delay t us l : seen t ([Paced 0x7E20C018 (16 * us)] ++ l) = seen (t + us) l.
Proof. cbn [app seen]. replace (16 * us / 16) with us by (rewrite Z.mul_comm, Z.div_mul by lia; reflexivity). reflexivity. Qed.

(** A request plays as asked. *)
Lemma play_req m a nxt r l t : 0 < a -> sane r -> holds m a (words_of a nxt r) -> plays extra m nxt l ->
  exists l', plays extra m a (l' ++ l) /\ seen t (l' ++ l) = asked t [r] ++ seen (t + match r with Pulse _ us | Delay us => us | _ => 0 end) l.
Proof.
  intros Ha Hs H HP. destruct r as [mask us|us|s c]; cbn [words_of] in H.
  - destruct Hs as [_ Hu].
    change ([pulse_info; a + 24; pulse_destination; pulse_length; pulse_stride; a + 32; mask; 0] ++
            [delay_info; 0; pwm_fifo; Z.shiftl us 4; 0; a + 64; 0; 0] ++
            [pulse_info; a + 88; pulse_destination; pulse_length; pulse_stride; nxt; 0; mask]) with
      [pulse_info; a + 24; pulse_destination; pulse_length; pulse_stride; a + 32; mask; 0;
            delay_info; 0; pwm_fifo; Z.shiftl us 4; 0; a + 64; 0; 0;
            pulse_info; a + 88; pulse_destination; pulse_length; pulse_stride; nxt; 0; mask].
    assert (H': holds m a ([pulse_info; a + 24; pulse_destination; pulse_length; pulse_stride; a + 32; mask; 0] ++
            [delay_info; 0; pwm_fifo; Z.shiftl us 4; 0; a + 64; 0; 0] ++
            [pulse_info; a + 88; pulse_destination; pulse_length; pulse_stride; nxt; 0; mask])) by exact H.
    apply holds_app in H'. destruct H' as [H1 H']. apply holds_app in H'. destruct H' as [H2 H3].
    cbn [length] in *. change (4 * Z.of_nat 8) with 32 in *.
    replace (a + 32 + 32) with (a + 64) in H3 by lia. replace (a + 88) with (a + 64 + 24) in H3 by lia.
    destruct (transfer_set_clear _ _ _ _ _ H1) as [T1 N1]. destruct (transfer_delay _ _ _ _ _ _ Hu H2) as [T2 N2]. destruct (transfer_set_clear _ _ _ _ _ H3) as [T3 N3].
    exists (transfer extra m a ++ transfer extra m (a + 32) ++ transfer extra m (a + 64)). rewrite <- !app_assoc. split.
    + apply plays_block; [lia|]. rewrite N1. apply plays_block; [lia|]. rewrite N2. apply plays_block; [lia|]. rewrite N3. exact HP.
    + rewrite T1, T2, T3. rewrite seen_set_clear, seen_delay, seen_set_clear. cbn [asked]. rewrite !app_nil_r.
      change (rise (t + us) 0) with (@nil event). change (fall t 0) with (@nil event). cbn [app]. now rewrite <- app_assoc.
  - destruct (transfer_delay _ _ _ _ _ _ Hs H) as [T N]. exists (transfer extra m a). split.
    + apply plays_block; [lia|]. rewrite N. exact HP.
    + rewrite T, seen_delay. reflexivity.
  - destruct (transfer_set_clear _ _ _ _ _ H) as [T N]. exists (transfer extra m a). split.
    + apply plays_block; [lia|]. rewrite N. exact HP.
    + rewrite T, seen_set_clear. cbn [asked]. rewrite app_nil_r, <- app_assoc. replace (t + 0) with t by lia. reflexivity.
Qed.

Lemma asked_cons t r l : asked t (r :: l) = asked t [r] ++ asked (t + match r with Pulse _ us | Delay us => us | _ => 0 end) l.
Proof. destruct r; cbn [asked]; rewrite ?app_nil_r, <- ?app_assoc; [reflexivity|reflexivity|]. now replace (t + 0) with t by lia. Qed.

Lemma play_image m l : forall a t, 0 < a -> Forall sane l -> l <> [] -> holds m a (image a 0 l) ->
  exists tr, plays extra m a tr /\ seen t tr = asked t l.
Proof.
  induction l as [|r l IH]; intros a t Ha HS N H; [congruence|]. inversion HS as [|? ? Sr Sl]; subst. destruct l as [|r' l].
  - cbn [image] in H. destruct (play_req m a 0 r [] t Ha Sr H (plays_stop extra m)) as (tr & P & E). exists (tr ++ []). split; [exact P|].
    rewrite E. cbn [seen]. apply app_nil_r.
  - change (image a 0 (r :: r' :: l)) with (words_of a (a + bytes_of r) r ++ image (a + bytes_of r) 0 (r' :: l)) in H.
    apply holds_app in H. rewrite words_len in H. destruct H as [H1 H2]. pose proof (bytes_pos r).
    destruct (IH (a + bytes_of r) (t + match r with Pulse _ us | Delay us => us | _ => 0 end) ltac:(lia) Sl ltac:(discriminate) H2) as (tr & P & E).
    destruct (play_req m a _ r tr t Ha Sr H1 P) as (tr' & P' & E'). exists (tr' ++ tr). split; [exact P'|].
    rewrite E', E. symmetry. apply asked_cons.
Qed.

(** The whole: prepared from an empty buffer, finalised, played. *)
Lemma program_plays d l t : buffer_ok base size -> Forall sane l -> l <> [] -> bytes l <= size ->
  exists d1 d2 tr, adds (clear d) l = (d1, Ok tt) /\ run base size d1 false = (d2, Ok tt) /\
    plays extra (d_mem d2) base tr /\ seen t tr = asked t l /\
    (forall x, x < base \/ base + bytes l <= x -> d_mem d2 x = d_mem d x).
Proof.
  intros B HS N HL. destruct (adds_spec l (clear d) B HS) as (E & A & F & K); [cbn; lia|cbn; lia|].
  cbn [clear d_addr d_mem] in *. rewrite Z.add_0_r in *. rewrite Z.add_0_l in A.
  destruct (adds (clear d) l) as [d1 r1] eqn:EE. cbn [fst snd] in *. subst r1.
  assert (L32: 32 <= bytes l). { destruct l as [|r l]; [congruence|]. rewrite bytes_cons. pose proof (bytes_pos r). pose proof (bytes_nonneg l). lia. }
  pose proof B as (B1 & B2 & B3 & _).
  set (d2 := {| d_addr := bytes l; d_mem := mset (d_mem d1) (base + (bytes l + 20 - 32)) 0 |}).
  assert (R: run base size d1 false = (d2, Ok tt)).
  { unfold run. rewrite A. destruct (Z.eqb_spec (bytes l) 0); [lia|]. unfold DmaGpio.finalize_stream. rewrite A.
    destruct (Z.leb_spec 0 (bytes l + 20 - 32)); [|lia]. destruct (Z.leb_spec (bytes l + 20 - 32 + 4) size); [|lia]. cbn [andb]. reflexivity. }
  assert (H: holds (d_mem d2) base (image base 0 l)).
  { unfold d2. cbn [d_mem]. replace (base + (bytes l + 20 - 32)) with (base + bytes l - 12) by lia. eapply image_redirect; [lia|exact N|exact K]. }
  destruct (play_image (d_mem d2) l base t ltac:(lia) HS N H) as (tr & P & S).
  exists d1, d2, tr. repeat split; try assumption; try reflexivity.
  intros x Hx. unfold d2. cbn [d_mem]. rewrite mset_other by lia. apply F. lia.
Qed.

(** plays is a function of the start. *)
Lemma plays_det m a l1 : plays extra m a l1 -> forall l2, plays extra m a l2 -> l1 = l2.
Proof.
  induction 1 as [|cb l H P IH]; intros l2 P2; inversion P2 as [|cb' l' H' P']; subst; try congruence. f_equal. now apply IH.
Qed.

Lemma pack_error l : forall m a, snd (pack m a l) <> Raise MemoryError.
Proof. induction l as [|v l IH]; intros m a; cbn; [discriminate|]. destruct (is_u32 v); [apply IH|discriminate]. Qed.
Lemma put_no_memory_error d data nxt : snd (put base d data nxt) <> Raise MemoryError.
Proof.
  unfold put. pose proof (pack_error data (d_mem d) (base + d_addr d)) as P. destruct (pack _ _ _) as [m [[]|e]]; cbn in *; [discriminate|congruence].
Qed.
(** Any sequence of calls. *)
Lemma call_inside d c : 0 <= size -> 0 <= d_addr d <= size ->
  0 <= d_addr (do_call base size d c) <= size /\
  forall x, x < base \/ base + size <= x -> d_mem (do_call base size d c) x = d_mem d x.
Proof.
  intros S0 H. destruct c as [r| |loop|]; cbn [do_call].
  - split.
    + rewrite add_addr. destruct (snd (add d r)) as [[]|] eqn:E; [|exact H]. apply add_fits in E. pose proof (bytes_pos r). lia.
    + intros x Hx. destruct (Z_le_gt_dec (d_addr d + bytes_of r) size) as [L|G].
      * apply add_frame; lia.
      * rewrite add_full by lia. reflexivity.
  - unfold DmaGpio.finalize_stream. destruct (_ && _) eqn:C; cbn [fst]; [|auto]. apply andb_prop in C. destruct C as [C1 C2].
    apply Z.leb_le in C1, C2. cbn [d_addr d_mem]. split; [exact H|]. intros x Hx. apply mset_other. lia.
  - unfold run, DmaGpio.finalize_stream. destruct (d_addr d =? 0); [auto|].
    destruct loop; destruct (_ && _) eqn:C; cbn [fst]; auto; apply andb_prop in C; destruct C as [C1 C2];
    apply Z.leb_le in C1, C2; cbn [d_addr d_mem]; (split; [exact H|]); intros x Hx; apply mset_other; lia.
  - cbn. split; [lia|reflexivity].
Qed.
Lemma calls_inside l : forall d, 0 <= size -> 0 <= d_addr d <= size ->
  0 <= d_addr (do_calls base size d l) <= size /\
  forall x, x < base \/ base + size <= x -> d_mem (do_calls base size d l) x = d_mem d x.
Proof.
  induction l as [|c l IH]; intros d S0 H; [cbn; auto|]. change (do_calls base size d (c :: l)) with (do_calls base size (do_call base size d c) l).
  destruct (call_inside d c S0 H) as [A F]. destruct (IH _ S0 A) as [A' F']. split; [exact A'|].
  intros x Hx. rewrite F' by exact Hx. now apply F.
Qed.

End Buffer.
