(** Proofs for property C79. *)
From Coq Require Import String Ascii Bool Arith ZArith List Lia.
From Verif Require Import PyBase GCode Board BoardSpec.
Import ListNotations.
Local Open Scope Z_scope.

Lemma strip_some p s r : strip p s = Some r <-> s = (p ++ r)%list.
Proof.
  revert s. induction p as [|a p IH]; intros s; cbn [strip app].
  - split; [now intros [= ->]|now intros ->].
  - destruct s as [|b s]; [split; discriminate|]. destruct (Ascii.eqb_spec a b) as [->|Nab].
    + rewrite IH. split; [now intros ->|now intros [= ->]].
    + split; [discriminate|]. intros [= E _]. now elim Nab.
Qed.
Lemma strip_none p s : strip p s = None <-> forall r, s <> (p ++ r)%list.
Proof.
  split.
  - intros H r E. apply strip_some in E. congruence.
  - intros H. destruct (strip p s) as [r|] eqn:E; [|reflexivity]. apply strip_some in E. now elim (H r).
Qed.
Lemma is_lf_spec c : is_lf c = true <-> c = lf.
Proof.
  unfold is_lf, code. rewrite Nat.eqb_eq. split; [|intros ->; reflexivity]. intros E. rewrite <- (ascii_nat_embedding c), E. reflexivity.
Qed.
Lemma not_lf c : c <> lf -> is_lf c = false.
Proof. intros H. destruct (is_lf c) eqn:E; [|reflexivity]. apply is_lf_spec in E. now elim H. Qed.

(** A name without line feed that begins the file begins its first line. *)
Lemma prefix_line name l rest r : plain name -> (l ++ lf :: rest = name ++ r)%list -> exists r', l = (name ++ r')%list.
Proof.
  revert l. induction name as [|a name IH]; intros l P E; [exists l; reflexivity|].
  destruct l as [|b l]; cbn [app] in E; injection E as Ea E.
  - elim P. left. now symmetry.
  - subst b. destruct (IH l) as [r' ->]; [intros I; apply P; now right|exact E|]. now exists r'.
Qed.
Lemma search_inside name l rest : plain l -> search name false (l ++ lf :: rest) = search name true rest.
Proof.
  induction l as [|c l IH]; intros P; cbn [app search]; [reflexivity|].
  rewrite (not_lf c) by (intros ->; apply P; now left). apply IH. intros I. apply P. now right.
Qed.
Lemma search_other name l rest : plain name -> plain l -> other name l -> search name true (l ++ lf :: rest) = search name true rest.
Proof.
  intros Pn Pl O. rewrite <- (search_inside name l rest Pl).
  assert (F: field_at name (l ++ lf :: rest) = None).
  { unfold field_at. destruct (strip name (l ++ lf :: rest)) as [r|] eqn:E; [|reflexivity]. apply strip_some in E.
    destruct (prefix_line name l rest r Pn E) as [r' ->]. destruct (O r' eq_refl) as (c & r'' & -> & B).
    rewrite <- app_assoc in E. apply app_inv_head in E. subst r. cbn [app blanks_of]. now rewrite B. }
  destruct (l ++ lf :: rest)%list; cbn [search]; rewrite F; reflexivity.
Qed.
Lemma search_others name l1 rest : plain name -> Forall plain l1 -> Forall (other name) l1 -> search name true (file l1 ++ rest) = search name true rest.
Proof.
  intros Pn. induction l1 as [|l l1 IH]; intros Pl O; [reflexivity|]. inversion Pl; inversion O; subst. cbn [file].
  rewrite <- app_assoc. cbn [app]. rewrite search_other by assumption. now apply IH.
Qed.
Lemma file_app l1 l2 : file (l1 ++ l2) = (file l1 ++ file l2)%list.
Proof. induction l1 as [|l l1 IH]; cbn [file app]; [reflexivity|]. now rewrite IH, <- app_assoc. Qed.
Lemma line_of_app v rest : plain v -> line_of (v ++ lf :: rest) = v.
Proof.
  induction v as [|c v IH]; intros P; cbn [line_of app]; [reflexivity|].
  rewrite (not_lf c) by (intros ->; apply P; now left). f_equal. apply IH. intros I. apply P. now right.
Qed.
Lemma field_line name v rest : proper v -> field_at name (line name v ++ lf :: rest) = Some v.
Proof.
  intros (c & r & E & B & P). unfold field_at.
  replace (strip name (line name v ++ lf :: rest)) with (Some (tab :: list_ascii_of_string ": " ++ v ++ lf :: rest)%list).
  2: { symmetry. apply strip_some. unfold line. now rewrite <- !app_assoc. }
  change (list_ascii_of_string ": ") with [":"; " "]%char. cbn [app].
  change (blanks_of (tab :: ":"%char :: " "%char :: v ++ lf :: rest)) with ([tab], ":"%char :: " "%char :: v ++ lf :: rest)%list. cbv iota.
  change (negb (code ":"%char =? 58)%nat) with false. cbv iota.
  change (blanks_of (" "%char :: v ++ lf :: rest)) with (" "%char :: fst (blanks_of (v ++ lf :: rest)), snd (blanks_of (v ++ lf :: rest)))%list.
  assert (Bl: blanks_of (v ++ lf :: rest) = ([], v ++ lf :: rest)%list) by (rewrite E; cbn [app blanks_of]; now rewrite B).
  rewrite Bl. cbn [fst snd]. rewrite E at 1. cbn [app]. now rewrite line_of_app.
Qed.
Lemma search_says ls name v : plain name -> Forall plain ls -> proper v -> says ls name v -> search name true (file ls) = Some v.
Proof.
  intros Pn Pl Pv (l1 & l2 & -> & O). apply Forall_app in Pl. destruct Pl as [P1 P2]. rewrite file_app, search_others by assumption. cbn [file].
  assert (F := field_line name v (file l2) Pv). destruct (line name v ++ lf :: file l2)%list; cbn [search]; now rewrite F.
Qed.
Lemma search_silent ls name : plain name -> name <> [] -> Forall plain ls -> Forall (other name) ls -> search name true (file ls) = None.
Proof.
  intros Pn Ne Pl O. rewrite <- (app_nil_r (file ls)), search_others by assumption. destruct name; [now elim Ne|reflexivity].
Qed.
Lemma plain_revision : plain revision_name. Proof. unfold plain. cbn. intros H. repeat destruct H as [H|H]; try discriminate H; exact H. Qed.
Lemma plain_hardware : plain hardware_name. Proof. unfold plain. cbn. intros H. repeat destruct H as [H|H]; try discriminate H; exact H. Qed.

Lemma same_spec a b : same a b = true <-> a = b.
Proof.
  revert b. induction a as [|x a IH]; intros [|y b]; cbn [same]; try (split; (reflexivity || discriminate)).
  rewrite andb_true_iff, Ascii.eqb_eq, IH. split; [now intros [-> ->]|intros [= -> ->]; auto].
Qed.
Lemma in_revisions rev : existsb (same rev) rpi_1_revisions = true <-> In rev rpi_1_revisions.
Proof.
  rewrite existsb_exists. split.
  - intros (x & I & E). apply same_spec in E. now subst.
  - intros I. exists rev. split; [exact I|now apply same_spec].
Qed.
Lemma contains_spec p s : contains p s = true <-> exists a b, s = (a ++ p ++ b)%list.
Proof.
  induction s as [|c s IH]; cbn [contains].
  - destruct (strip p []) as [r|] eqn:E.
    + apply strip_some in E. split; [intros _; exists [], r; exact E|reflexivity].
    + split; [discriminate|]. intros (a & b & H). apply strip_none with (r := b) in E. elim E. destruct a; [exact H|discriminate].
  - destruct (strip p (c :: s)) as [r|] eqn:E.
    + apply strip_some in E. split; [intros _; exists [], r; exact E|reflexivity].
    + rewrite IH. split.
      * intros (a & b & ->). now exists (c :: a), b.
      * intros (a & b & H). destruct a as [|x a]; [apply strip_none with (r := b) in E; now elim E|]. injection H as -> ->. now exists a, b.
Qed.

(* ---------- reading the revision back ---------- *)
Definition digit (c : ascii) : Z := let n := Z.of_nat (nat_of_ascii c) in if n <=? 57 then n - 48 else n - 87.
Definition number (s : text) : Z := fold_left (fun a c => 16 * a + digit c) s 0.
Lemma digit_hex n : 0 <= n < 16 -> digit (hex_digit n) = n.
Proof.
  intros H. assert (C: n = 0 \/ n = 1 \/ n = 2 \/ n = 3 \/ n = 4 \/ n = 5 \/ n = 6 \/ n = 7 \/ n = 8 \/ n = 9 \/ n = 10 \/ n = 11 \/ n = 12 \/ n = 13 \/ n = 14 \/ n = 15) by lia.
  repeat destruct C as [->|C]; try reflexivity. subst. reflexivity.
Qed.
Lemma number_hex k n : 0 <= n < 16 ^ Z.of_nat k -> number (hex k n) = n.
Proof.
  revert n. induction k as [|k IH]; intros n H; [cbn in *; lia|]. cbn [hex]. destruct (Z.ltb_spec n 16) as [L|G].
  - unfold number. cbn [fold_left]. rewrite digit_hex by lia. lia.
  - unfold number. rewrite fold_left_app. cbn [fold_left]. fold (number (hex k (n / 16))). rewrite Nat2Z.inj_succ, Z.pow_succ_r in H by lia.
    rewrite IH by (split; [apply Z.div_pos; lia|apply Z.div_lt_upper_bound; lia]).
    assert (M := Z.mod_pos_bound n 16 ltac:(lia)). rewrite digit_hex by lia. rewrite (Z.div_mod n 16) at 3 by lia. lia.
Qed.
Lemma number_zeros k s : number (repeat "0"%char k ++ s) = number s.
Proof. induction k as [|k IH]; [reflexivity|]. cbn [repeat app]. exact IH. Qed.
Lemma number_revision n : 0 <= n < 2 ^ 32 -> number (revision_text n) = n.
Proof. intros H. unfold revision_text. rewrite number_zeros. apply number_hex. exact H. Qed.

Definition listed : list Z := [2; 3; 4; 5; 6; 7; 8; 9; 13; 14; 15; 16; 17; 18; 19; 20; 21; 0x900021; 0x900032].
Lemma revision_listed n : 0 <= n < 2 ^ 32 -> In (revision_text n) rpi_1_revisions <-> In n listed.
Proof.
  intros H. split.
  - intros I. rewrite <- (number_revision n H). apply (in_map number) in I. exact I.
  - intros I. repeat (destruct I as [<-|I]; [vm_compute; auto 30|]). destruct I.
Qed.
Lemma hex_plain k n : 0 <= n -> Forall (fun c => is_blank c = false) (hex k n).
Proof.
  assert (D: forall n, is_blank (hex_digit n) = false).
  { intros m. unfold hex_digit. destruct (Z.to_nat m) as [|[|[|[|[|[|[|[|[|[|[|[|[|[|[|[|k']]]]]]]]]]]]]]]]; try reflexivity. cbn. destruct k'; reflexivity. }
  revert n. induction k as [|k IH]; intros n H; [constructor|]. cbn [hex]. destruct (n <? 16); [constructor; [apply D|constructor]|].
  apply Forall_app. split; [apply IH, Z.div_pos; lia|constructor; [apply D|constructor]].
Qed.
Lemma hex_nonempty k n : (0 < k)%nat -> hex k n <> [].
Proof. destruct k; [lia|]. intros _. cbn [hex]. destruct (n <? 16); [discriminate|]. intros E. apply app_eq_nil in E. destruct E as [_ E]. discriminate. Qed.
Lemma revision_proper n : 0 <= n -> proper (revision_text n).
Proof.
  intros H. assert (F: Forall (fun c => is_blank c = false) (revision_text n)).
  { unfold revision_text. apply Forall_app. split; [|now apply hex_plain]. apply Forall_forall. intros x I. apply repeat_spec in I. now subst. }
  destruct (revision_text n) as [|c r] eqn:E.
  - unfold revision_text in E. apply app_eq_nil in E. destruct E as [_ E]. now apply hex_nonempty in E; [|lia].
  - exists c, r. split; [reflexivity|]. inversion F; subst. split; [assumption|]. intros I. rewrite Forall_forall in F. specialize (F _ I). discriminate F.
Qed.

(* ---------- the choice ---------- *)
Lemma choose_says ls h rev : Forall plain ls -> proper h -> proper rev -> says ls hardware_name h -> says ls revision_name rev ->
  choose (Some (file ls)) = if existsb (same rev) rpi_1_revisions then Raspberry rpi1_base else if contains (t "BCM2") h then Raspberry rpi23_base else Virtual.
Proof.
  intros Pl Ph Pr Sh Sr. unfold choose, detect. rewrite (search_says ls revision_name rev plain_revision Pl Pr Sr), (search_says ls hardware_name h plain_hardware Pl Ph Sh).
  destruct (existsb _ _); [reflexivity|]. destruct (contains _ _); reflexivity.
Qed.
Lemma board_choice ls h n : Forall plain ls -> proper h -> (exists a b, h = a ++ t "BCM2" ++ b)%list -> 0 <= n < 2 ^ 32 ->
  says ls hardware_name h -> says ls revision_name (revision_text n) ->
  choose (Some (file ls)) = Raspberry (if in_dec Z.eq_dec n listed then 0x20000000 else 0x3F000000).
Proof.
  intros Pl Ph Hh Hn Sh Sr. rewrite (choose_says ls h _ Pl Ph (revision_proper n (proj1 Hn)) Sh Sr).
  destruct (in_dec Z.eq_dec n listed) as [I|I].
  - apply (revision_listed n Hn), in_revisions in I. now rewrite I.
  - destruct (existsb (same (revision_text n)) rpi_1_revisions) eqn:E; [apply in_revisions, (revision_listed n Hn) in E; now elim I|].
    apply contains_spec in Hh. now rewrite Hh.
Qed.
Lemma board_right ls h n c : Forall plain ls -> proper h -> (exists a b, h = a ++ t "BCM2" ++ b)%list -> 0 <= n < 2 ^ 32 -> chip_of n = Some c ->
  says ls hardware_name h -> says ls revision_name (revision_text n) ->
  choose (Some (file ls)) = Raspberry (peripherals c) <-> c = BCM2836 \/ c = BCM2837 \/ In n listed.
Proof.
  intros Pl Ph Hh Hn Hc Sh Sr. rewrite (board_choice ls h n Pl Ph Hh Hn Sh Sr). destruct (in_dec Z.eq_dec n listed) as [I|I].
  - assert (c = BCM2835).
    { repeat (destruct I as [<-|I]; [vm_compute in Hc; congruence|]). destruct I. }
    subst c. split; [auto|reflexivity].
  - split.
    + destruct c; cbn [peripherals]; intros E; try discriminate E; auto.
    + intros [->|[->|X]]; [reflexivity|reflexivity|now elim I].
Qed.
Lemma board_none ls : Forall plain ls -> Forall (other hardware_name) ls -> choose (Some (file ls)) = Virtual.
Proof. intros Pl O. unfold choose, detect. now rewrite (search_silent ls hardware_name plain_hardware ltac:(discriminate) Pl O). Qed.
Lemma board_no_revision ls h : Forall plain ls -> proper h -> says ls hardware_name h -> Forall (other revision_name) ls -> choose (Some (file ls)) = NoDevice.
Proof.
  intros Pl Ph Sh O. unfold choose, detect. now rewrite (search_says ls hardware_name h plain_hardware Pl Ph Sh), (search_silent ls revision_name plain_revision ltac:(discriminate) Pl O).
Qed.
Lemma board_other ls h rev : Forall plain ls -> proper h -> proper rev -> says ls hardware_name h -> says ls revision_name rev ->
  ~ (exists a b, h = a ++ t "BCM2" ++ b)%list -> ~ In rev rpi_1_revisions -> choose (Some (file ls)) = Virtual.
Proof.
  intros Pl Ph Pr Sh Sr Nh Nr. rewrite (choose_says ls h rev Pl Ph Pr Sh Sr).
  destruct (existsb (same rev) rpi_1_revisions) eqn:E; [apply in_revisions in E; contradiction|].
  destruct (contains (t "BCM2") h) eqn:C; [apply contains_spec in C; contradiction|reflexivity].
Qed.
Lemma listed_codes n c : 0 <= n -> chip_of n = Some c -> In n listed <-> n <= 21 \/ n = 0x900021 \/ n = 0x900032.
Proof.
  intros H0 Hc. split.
  - intros I. repeat (destruct I as [<-|I]; [lia|]). destruct I.
  - intros [L|[E|E]]; [|subst n; vm_compute; auto 30|subst n; vm_compute; auto 30].
    assert (C: n = 0 \/ n = 1 \/ n = 2 \/ n = 3 \/ n = 4 \/ n = 5 \/ n = 6 \/ n = 7 \/ n = 8 \/ n = 9 \/ n = 10 \/ n = 11 \/ n = 12 \/ n = 13 \/ n = 14 \/ n = 15 \/ n = 16 \/ n = 17 \/ n = 18 \/ n = 19 \/ n = 20 \/ n = 21) by lia.
    repeat (destruct C as [->|C]; [try discriminate Hc; vm_compute; auto 30|]). subst. vm_compute; auto 30.
Qed.
Lemma board_base ls h n c : Forall plain ls -> proper h -> (exists a b, h = a ++ t "BCM2" ++ b)%list -> 0 <= n < 2 ^ 32 -> chip_of n = Some c ->
  says ls hardware_name h -> says ls revision_name (revision_text n) ->
  choose (Some (file ls)) = Raspberry (peripherals c) <-> c = BCM2836 \/ c = BCM2837 \/ n <= 21 \/ n = 0x900021 \/ n = 0x900032.
Proof. intros Pl Ph Hh Hn Hc Sh Sr. rewrite (board_right ls h n c Pl Ph Hh Hn Hc Sh Sr), (listed_codes n c (proj1 Hn) Hc). tauto. Qed.
