(** Proofs about the parser model. *)
From Coq Require Import String Ascii Bool Arith Lia ZArith List Permutation.
From Verif Require Import PyBase GCode GCodeSpec.
Import ListNotations.

(* ---------- character classes: model = specification ---------- *)
Ltac all_ascii c :=
  destruct c as [b0 b1 b2 b3 b4 b5 b6 b7];
  destruct b0, b1, b2, b3, b4, b5, b6, b7.

Definition inb (c : ascii) (l : list ascii) : bool := existsb (Ascii.eqb c) l.
Lemma inb_In c l : inb c l = true <-> In c l.
Proof.
  unfold inb. rewrite existsb_exists. split.
  - intros (x & Hx & E). apply Ascii.eqb_eq in E. now subst.
  - intros H. exists c. split; auto. apply Ascii.eqb_refl.
Qed.
Lemma is_blank_inb c : is_blank c = inb c blanks.
Proof. all_ascii c; reflexivity. Qed.
Lemma is_letter_inb c : is_letter c = inb c capitals.
Proof. all_ascii c; reflexivity. Qed.
Lemma is_numch_inb c : is_numch c = inb c numchars.
Proof. all_ascii c; reflexivity. Qed.
Lemma is_digit_inb c : is_digit c = inb c digits.
Proof. all_ascii c; reflexivity. Qed.
Lemma is_sign_inb c : is_sign c = inb c (chars "+-").
Proof. all_ascii c; reflexivity. Qed.
Lemma is_lf_eqb c : is_lf c = Ascii.eqb c LF.
Proof. all_ascii c; reflexivity. Qed.
Lemma is_open_eqb c : is_open c = Ascii.eqb c "(".
Proof. all_ascii c; reflexivity. Qed.
Lemma is_close_eqb c : is_close c = Ascii.eqb c ")".
Proof. all_ascii c; reflexivity. Qed.
Lemma is_semi_eqb c : is_semi c = Ascii.eqb c ";".
Proof. all_ascii c; reflexivity. Qed.
Lemma is_dot_eqb c : is_dot c = Ascii.eqb c ".".
Proof. all_ascii c; reflexivity. Qed.

Lemma is_blank_In c : is_blank c = true <-> In c blanks.
Proof. rewrite is_blank_inb. apply inb_In. Qed.
Lemma is_letter_In c : is_letter c = true <-> In c capitals.
Proof. rewrite is_letter_inb. apply inb_In. Qed.
Lemma is_numch_In c : is_numch c = true <-> In c numchars.
Proof. rewrite is_numch_inb. apply inb_In. Qed.
Lemma is_digit_In c : is_digit c = true <-> In c digits.
Proof. rewrite is_digit_inb. apply inb_In. Qed.
Lemma is_sign_In c : is_sign c = true <-> In c (chars "+-").
Proof. rewrite is_sign_inb. apply inb_In. Qed.
Lemma is_lf_eq c : is_lf c = true <-> c = LF.
Proof. rewrite is_lf_eqb. apply Ascii.eqb_eq. Qed.
Lemma is_open_eq c : is_open c = true <-> c = "("%char.
Proof. rewrite is_open_eqb. apply Ascii.eqb_eq. Qed.
Lemma is_close_eq c : is_close c = true <-> c = ")"%char.
Proof. rewrite is_close_eqb. apply Ascii.eqb_eq. Qed.
Lemma is_semi_eq c : is_semi c = true <-> c = ";"%char.
Proof. rewrite is_semi_eqb. apply Ascii.eqb_eq. Qed.

Lemma bool_iff_false (b : bool) (P : Prop) : (b = true <-> P) -> (b = false <-> ~ P).
Proof.
  intros H. split; intros H0.
  - intros p. apply H in p. congruence.
  - destruct b; auto. exfalso. apply H0, H. reflexivity.
Qed.

(* ---------- upper ---------- *)
Lemma upper1_table c :
  (exists i, nth_error smalls i = Some c /\ nth_error capitals i = Some (upper1 c))
  \/ (inb c smalls = false /\ upper1 c = c).
Proof.
  all_ascii c; try (right; split; reflexivity);
  left;
  match goal with |- exists i, nth_error smalls i = Some ?c /\ _ =>
    let c' := eval vm_compute in c in
    let rec go k l := match l with
       | c' :: _ => exists k
       | _ :: ?l' => go (S k) l' end in
    let l := eval vm_compute in smalls in go 0 l end; split; reflexivity.
Qed.

Lemma upper1_spec c : Upcase1 c (upper1 c).
Proof.
  destruct (upper1_table c) as [(i & Hi & Hj)|[H E]].
  - now apply (up_small i).
  - rewrite E. apply up_other. intros Hin. apply inb_In in Hin. congruence.
Qed.

Lemma smalls_nodup : NoDup smalls.
Proof.
  assert (H: NoDup (nodup ascii_dec smalls)) by apply NoDup_nodup.
  vm_compute in H. exact H.
Qed.

Lemma Upcase1_fun c d : Upcase1 c d -> d = upper1 c.
Proof.
  intros H. destruct (upper1_table c) as [(i & Hi & Hj)|[Hn E]].
  - destruct H as [j c d Hc Hd|c Hn].
    + assert (i = j) by (eapply NoDup_nth_error; [apply smalls_nodup| |congruence];
        apply nth_error_Some; congruence).
      subst. congruence.
    + exfalso. apply Hn. eapply nth_error_In; eauto.
  - destruct H as [j c d Hc Hd|c Hn'].
    + apply nth_error_In in Hc. apply inb_In in Hc. congruence.
    + now rewrite E.
Qed.

Lemma Upcase_upper s u : Upcase s u <-> u = upper s.
Proof.
  split.
  - induction 1; simpl; auto. f_equal; auto. now apply Upcase1_fun.
  - intros ->. induction s; simpl; constructor; auto. apply upper1_spec.
Qed.

Lemma SameLetter_upper1 c d : SameLetter c d -> upper1 c = upper1 d.
Proof.
  intros [->|(i & Hc & Hd)]; auto.
  assert (Hi: i < 26).
  { destruct Hc as [Hc|Hc].
    - change 26 with (length smalls). apply nth_error_Some. congruence.
    - change 26 with (length capitals). apply nth_error_Some. congruence. }
  do 26 (destruct i as [|i]; [
    destruct Hc as [Hc|Hc], Hd as [Hd|Hd]; vm_compute in Hc, Hd;
    injection Hc as <-; injection Hd as <-; reflexivity |]).
  lia.
Qed.

Lemma SameUpToCase_upper s t : SameUpToCase s t -> upper s = upper t.
Proof. induction 1; simpl; auto. f_equal; auto. now apply SameLetter_upper1. Qed.

(* ---------- clean = Stripped ---------- *)
Lemma closes_iff r :
  closes r = true <-> exists b r', r = b ++ ")"%char :: r' /\ CommentBody b.
Proof.
  unfold CommentBody. induction r as [|c r IH]; simpl.
  - split; [discriminate|]. intros (b & r' & E & _). destruct b; discriminate.
  - destruct (is_close c) eqn:Ec.
    + apply is_close_eq in Ec. subst. split; auto. intros _.
      exists [], r. simpl. tauto.
    + apply (bool_iff_false _ _ (is_close_eq c)) in Ec.
      destruct (is_lf c) eqn:El.
      * apply is_lf_eq in El. split; [discriminate|].
        intros (b & r' & E & Hb1 & Hb2). destruct b as [|x b]; simpl in *; injection E as -> ->.
        -- congruence.
        -- subst x. exfalso. apply Hb2. left. reflexivity.
      * apply (bool_iff_false _ _ (is_lf_eq c)) in El.
        rewrite IH. split.
        -- intros (b & r' & -> & H1 & H2). exists (c :: b), r'. simpl.
           split; [reflexivity|]. split; intros [|]; auto.
        -- intros (b & r' & E & Hb1 & Hb2). destruct b as [|x b]; simpl in *; injection E as -> ->.
           ++ congruence.
           ++ exists b, r'. split; [reflexivity|]. split; intros ?; [apply Hb1|apply Hb2]; auto.
Qed.

Lemma clean_InParen b r : CommentBody b -> clean InParen (b ++ ")"%char :: r) = clean Outside r.
Proof.
  intros [H1 H2]. induction b as [|c b IH]; simpl.
  - reflexivity.
  - destruct (is_close c) eqn:E.
    + apply is_close_eq in E. subst. exfalso. apply H1. left. reflexivity.
    + apply IH; intros ?; [apply H1|apply H2]; right; auto.
Qed.

Lemma clean_InLine b r : LineBody b -> AtLineEnd r -> clean InLine (b ++ r) = clean Outside r.
Proof.
  intros H1 H2. induction b as [|c b IH]; simpl.
  - destruct H2 as [->|(r' & ->)]; reflexivity.
  - destruct (is_lf c) eqn:E.
    + apply is_lf_eq in E. subst. exfalso. apply H1. left. reflexivity.
    + apply IH. intros ?; apply H1; right; auto.
Qed.

Lemma split_line r : exists b r', r = b ++ r' /\ LineBody b /\ AtLineEnd r'.
Proof.
  induction r as [|c r (b & r' & -> & Hb & Hr)].
  - exists [], []. simpl. split; auto. split; [intros []|left; auto].
  - destruct (is_lf c) eqn:E.
    + apply is_lf_eq in E. subst c. exists [], (LF :: b ++ r'). simpl.
      split; auto. split; [intros []|right; eauto].
    + apply (bool_iff_false _ _ (is_lf_eq c)) in E.
      exists (c :: b), r'. simpl. split; auto. split; auto. intros [|]; auto.
Qed.

Lemma clean_Stripped s : Stripped s (clean Outside s).
Proof.
  remember (length s) as n. assert (Hn: length s <= n) by lia. clear Heqn.
  revert s Hn. induction n as [|n IH]; intros [|c r] Hn; simpl in *; [constructor|lia|constructor|].
  destruct (is_blank c) eqn:Eb.
  { apply is_blank_In in Eb. apply st_blank; [exact Eb|]. apply IH. lia. }
  apply (bool_iff_false _ _ (is_blank_In c)) in Eb.
  destruct (is_open c && closes r) eqn:Eo.
  { apply andb_true_iff in Eo. destruct Eo as [Eo Ec].
    apply is_open_eq in Eo. subst c. apply closes_iff in Ec.
    destruct Ec as (b & r' & -> & Hb). rewrite clean_InParen by auto.
    apply st_comment; [exact Hb|]. apply IH. rewrite app_length in Hn. simpl in Hn. lia. }
  destruct (is_semi c) eqn:Es.
  { apply is_semi_eq in Es. subst c.
    destruct (split_line r) as (b & r' & -> & Hb & Hr).
    rewrite clean_InLine by auto. apply st_line; [exact Hb|exact Hr|]. apply IH.
    rewrite app_length in Hn. lia. }
  apply (bool_iff_false _ _ (is_semi_eq c)) in Es.
  apply st_other; [exact Eb|exact Es| |].
  - intros [-> H]. apply closes_iff in H. rewrite H in Eo. discriminate.
  - apply IH. lia.
Qed.

Lemma Stripped_clean s t : Stripped s t -> t = clean Outside s.
Proof.
  induction 1 as [|c r t Hb _ IH|b r t Hb _ IH|b r t Hb Hr _ IH|c r t H1 H2 H3 _ IH]; simpl; auto.
  - apply is_blank_In in Hb. now rewrite Hb.
  - assert (E: closes (b ++ ")"%char :: r) = true) by (apply closes_iff; eauto).
    rewrite E. rewrite clean_InParen; auto.
  - rewrite clean_InLine; auto.
  - apply (bool_iff_false _ _ (is_blank_In c)) in H1. rewrite H1.
    assert (E: is_open c && closes r = false).
    { apply not_true_is_false. intros E. apply andb_true_iff in E. destruct E as [E1 E2].
      apply is_open_eq in E1. apply closes_iff in E2. auto. }
    rewrite E. apply (bool_iff_false _ _ (is_semi_eq c)) in H2. rewrite H2.
    now f_equal.
Qed.

Lemma Stripped_fun s t t' : Stripped s t -> Stripped s t' -> t = t'.
Proof. intros H H'. apply Stripped_clean in H, H'. congruence. Qed.

(* ---------- findall = Sentence ---------- *)
Definition prefix (st : fstate) : text :=
  match st with
  | Seek => [] | AfterLetter l => [l] | AfterSign l s => [l; s]
  | InNumber l acc => l :: acc end.
Definition wf (st : fstate) : Prop :=
  match st with
  | Seek => True | AfterLetter l => In l capitals
  | AfterSign l s => In l capitals /\ In s (chars "+-")
  | InNumber l acc => In l capitals /\ Literal acc end.

Lemma Literal_snoc acc c : Literal acc -> In c numchars -> Literal (acc ++ [c]).
Proof.
  intros H Hc. destruct H as [b Hb F|s b Hs Hb F]; simpl; constructor; auto;
    try (destruct b; discriminate); apply Forall_app; auto.
Qed.

Lemma seek1_wf c : wf (seek1 c).
Proof.
  unfold seek1. destruct (is_letter c) eqn:E; simpl; auto. now apply is_letter_In.
Qed.

Lemma findall_bound s : forall st, wf st ->
  length (join_words (findall st s)) <= length (prefix st ++ s) /\
  (length (join_words (findall st s)) = length (prefix st ++ s) ->
   Sentence (prefix st ++ s) (findall st s)).
Proof.
  induction s as [|c r IH]; intros st Hst.
  - destruct st; simpl in *.
    + split; auto. constructor.
    + split; [lia|discriminate].
    + split; [lia|discriminate].
    + destruct Hst. rewrite app_nil_r. split; auto. intros _.
      rewrite <- (app_nil_r acc) at 1. constructor; auto. constructor.
  - assert (Hseek: length (join_words (findall (seek1 c) r)) <= S (length r) /\
            (length (join_words (findall (seek1 c) r)) = S (length r) ->
             Sentence (c :: r) (findall (seek1 c) r))).
    { destruct (IH (seek1 c) (seek1_wf c)) as [H1 H2].
      unfold seek1 in *. destruct (is_letter c) eqn:E; simpl in *; auto.
      split; [lia|]. intros E'. lia. }
    destruct st as [|l|l sg|l acc]; simpl prefix in *; simpl app in *.
    + exact Hseek.
    + simpl findall. destruct (is_numch c) eqn:En.
      * apply is_numch_In in En. simpl in Hst.
        destruct (IH (InNumber l [c])) as [H1 H2].
        { simpl. split; auto. constructor; auto. discriminate. }
        simpl in *. auto.
      * destruct (is_sign c) eqn:Es.
        -- apply is_sign_In in Es.
           destruct (IH (AfterSign l c)) as [H1 H2]; [split; auto|]. simpl in *. auto.
        -- cbn [length]. destruct Hseek as [H1 _]. split; [lia|].
           intros Hc. exfalso. lia.
    + simpl findall. destruct Hst as [Hl Hs]. destruct (is_numch c) eqn:En.
      * apply is_numch_In in En.
        destruct (IH (InNumber l [sg; c])) as [H1 H2].
        { simpl. split; auto. apply lit_signed; auto. discriminate. }
        simpl in *. auto.
      * cbn [length]. destruct Hseek as [H1 _]. split; [lia|].
        intros Hc. exfalso. lia.
    + simpl findall. destruct Hst as [Hl Hv]. destruct (is_numch c) eqn:En.
      * apply is_numch_In in En.
        destruct (IH (InNumber l (acc ++ [c]))) as [H1 H2].
        { simpl. split; auto. now apply Literal_snoc. }
        simpl in *. rewrite <- app_assoc in *. simpl in *. auto.
      * unfold join_words. cbn [flat_map fst snd]. fold join_words.
        simpl. rewrite !app_length. simpl. destruct Hseek as [H1 H2].
        split; [unfold join_words in *; lia|]. intros Hc. constructor; auto.
        apply H2. unfold join_words in *. lia.
Qed.

Lemma findall_complete_len t :
  length (join_words (findall Seek t)) = length t -> Sentence t (findall Seek t).
Proof. intros H. destruct (findall_bound t Seek I) as [_ H2]. apply H2. exact H. Qed.

Definition starts_word (r : text) : Prop := r = [] \/ exists l r', r = l :: r' /\ In l capitals.

Lemma capital_not_num l : In l capitals -> is_numch l = false.
Proof.
  intros H. apply inb_In in H. revert H. all_ascii l; vm_compute; congruence.
Qed.
Lemma sign_not_num l : In l (chars "+-") -> is_numch l = false.
Proof.
  intros H. apply inb_In in H. revert H. all_ascii l; vm_compute; congruence.
Qed.

Lemma findall_num l acc b r :
  Forall (fun c => In c numchars) b -> starts_word r ->
  findall (InNumber l acc) (b ++ r) = (l, acc ++ b) :: findall Seek r.
Proof.
  intros Hb Hr. revert acc. induction Hb as [|c b Hc Hb IH]; intros acc; simpl.
  - rewrite app_nil_r. destruct Hr as [->|(l' & r' & -> & Hl)]; simpl; auto.
    now rewrite (capital_not_num l' Hl).
  - apply is_numch_In in Hc. rewrite Hc. rewrite IH. now rewrite <- app_assoc.
Qed.

Lemma findall_word l v r :
  In l capitals -> Literal v -> starts_word r ->
  findall Seek (l :: v ++ r) = (l, v) :: findall Seek r.
Proof.
  intros Hl Hv Hr. simpl. unfold seek1. pose proof Hl as Hl'.
  apply is_letter_In in Hl'. rewrite Hl'.
  destruct Hv as [b Hb F|s b Hs Hb F].
  - destruct F as [|c b Hc F]; [congruence|]. simpl.
    apply is_numch_In in Hc. rewrite Hc. now rewrite findall_num.
  - simpl. rewrite (sign_not_num s Hs). apply is_sign_In in Hs. rewrite Hs.
    destruct F as [|c b Hc F]; [congruence|]. simpl.
    apply is_numch_In in Hc. rewrite Hc. now rewrite findall_num.
Qed.

Lemma Sentence_starts t ws : Sentence t ws -> starts_word t.
Proof.
  destruct 1; [left; auto|right]. eauto.
Qed.

Lemma Sentence_findall t ws : Sentence t ws -> findall Seek t = ws.
Proof.
  induction 1 as [|l v r ws Hl Hv Hr IH]; auto.
  rewrite findall_word; auto. now rewrite IH. eapply Sentence_starts; eauto.
Qed.

Lemma Sentence_join t ws : Sentence t ws -> join_words ws = t.
Proof.
  induction 1; auto. unfold join_words in *. simpl. now rewrite IHSentence.
Qed.

Lemma Sentence_spell ws : Forall GoodWord ws -> Sentence (spell ws) ws.
Proof.
  induction 1 as [|[l v] ws [Hl Hv] _ IH]; simpl.
  - constructor.
  - unfold spell. simpl. constructor; auto.
Qed.

(* ---------- dict ---------- *)
Lemma dict_set_notin d k v : ~ In k (map fst d) -> dict_set d k v = d ++ [(k, v)].
Proof.
  induction d as [|[l w] d IH]; simpl; auto. intros H.
  destruct (Ascii.eqb_spec l k); [subst; tauto|]. rewrite IH; auto.
Qed.
Lemma dict_set_len d k v : length (dict_set d k v) <= S (length d).
Proof.
  induction d as [|[l w] d IH]; simpl; auto. destruct (Ascii.eqb l k); simpl; lia.
Qed.
Lemma dict_set_len_in d k v : In k (map fst d) -> length (dict_set d k v) = length d.
Proof.
  induction d as [|[l w] d IH]; simpl; [tauto|]. intros H.
  destruct (Ascii.eqb_spec l k); simpl; auto. rewrite IH; auto. tauto.
Qed.

Lemma dict_fold_len m d :
  length (fold_left (fun d w => dict_set d (fst w) (snd w)) m d) <= length d + length m.
Proof.
  revert d. induction m as [|[k v] m IH]; simpl; intros d; [lia|].
  specialize (IH (dict_set d k v)). pose proof (dict_set_len d k v). lia.
Qed.

Lemma dict_fold_nodup m : forall d,
  NoDup (map fst d) ->
  length (fold_left (fun d w => dict_set d (fst w) (snd w)) m d) = length d + length m ->
  NoDup (map fst (d ++ m)).
Proof.
  induction m as [|[k v] m IH]; simpl; intros d Hd H.
  - now rewrite app_nil_r.
  - pose proof (dict_fold_len m (dict_set d k v)) as Hl.
    destruct (in_dec ascii_dec k (map fst d)) as [Hin|Hin].
    + rewrite (dict_set_len_in d k v Hin) in Hl. lia.
    + rewrite dict_set_notin in * by auto.
      assert (H': NoDup (map fst ((d ++ [(k, v)]) ++ m))).
      { apply IH.
        - rewrite map_app. simpl. apply NoDup_rev in Hd.
          rewrite <- (rev_involutive (map fst d ++ [k])). apply NoDup_rev.
          rewrite rev_app_distr. simpl. constructor; auto.
          now rewrite <- in_rev.
        - rewrite H. rewrite app_length. simpl. lia. }
      rewrite <- app_assoc in H'. exact H'.
Qed.

Lemma dict_fold_id m : forall d,
  NoDup (map fst (d ++ m)) ->
  fold_left (fun d w => dict_set d (fst w) (snd w)) m d = d ++ m.
Proof.
  induction m as [|[k v] m IH]; simpl; intros d H.
  - now rewrite app_nil_r.
  - rewrite dict_set_notin.
    + rewrite IH; rewrite <- app_assoc; auto.
    + rewrite map_app in H. simpl in H. apply NoDup_remove_2 in H.
      intros Hin. apply H. apply in_or_app. now left.
Qed.

Lemma dict_of_nodup m : NoDup (map fst m) -> dict_of m = m.
Proof. intros H. unfold dict_of. now rewrite dict_fold_id. Qed.
Lemma dict_of_len m : length (dict_of m) = length m -> NoDup (map fst m).
Proof. intros H. apply (dict_fold_nodup m []); auto. constructor. Qed.

Lemma has_In ps k : has ps k = true <-> In k (map fst ps).
Proof.
  induction ps as [|[l v] r IH]; simpl; [split; [discriminate|tauto]|].
  rewrite orb_true_iff, IH, Ascii.eqb_eq. reflexivity.
Qed.

(* ---------- C01 ---------- *)
Lemma parse_line_none s :
  parse_line s = Ok None <->
  exists u t, Upcase s u /\ Stripped u t /\ (t = [] \/ exists r, t = "%"%char :: r).
Proof.
  unfold parse_line. split.
  - intros H. exists (upper s), (clean Outside (upper s)).
    split; [now apply Upcase_upper|]. split; [apply clean_Stripped|].
    destruct (clean Outside (upper s)) as [|c r]; auto.
    destruct (Ascii.eqb_spec c "%"); [subst; eauto|].
    repeat match type of H with context [if ?b then _ else _] => destruct b; try discriminate end.
  - intros (u & t & Hu & Ht & H). apply Upcase_upper in Hu. apply Stripped_clean in Ht.
    subst u. rewrite <- Ht. destruct H as [->|(r & ->)]; reflexivity.
Qed.

Lemma Sentence_not_percent t ws r : Sentence t ws -> t <> "%"%char :: r.
Proof.
  destruct 1 as [|l v r' ws Hl _ _]; [discriminate|]. intros E. injection E as -> _.
  apply inb_In in Hl. vm_compute in Hl. discriminate.
Qed.

Lemma parse_line_some s g :
  parse_line s = Ok (Some g) <->
  g <> [] /\ exists u t, Upcase s u /\ Stripped u t /\ Sentence t g /\ Compatible g.
Proof.
  unfold parse_line. split.
  - intros H. destruct (clean Outside (upper s)) as [|c r] eqn:Ec; [discriminate|].
    rewrite <- Ec in *.
    match type of H with context [Ascii.eqb ?c ?d] => destruct (Ascii.eqb c d); [discriminate|] end.
    clear c r Ec. set (t := clean Outside (upper s)) in *.
    destruct (Nat.eqb_spec (length (findall Seek t)) 0) as [|Hne]; [discriminate|].
    destruct (Nat.eqb_spec (length (join_words (findall Seek t))) (length t)) as [Hlen|]; [|discriminate].
    cbn [negb] in H.
    destruct (Nat.eqb_spec (length (dict_of (findall Seek t))) (length (findall Seek t))) as [Hd|]; [|discriminate].
    cbn [negb] in H. apply dict_of_len in Hd. rewrite dict_of_nodup in H by auto.
    destruct (has (findall Seek t) "G" && has (findall Seek t) "M") eqn:Egm; [discriminate|].
    injection H as <-. split.
    + intros E. rewrite E in Hne. simpl in Hne. lia.
    + exists (upper s), t. split; [now apply Upcase_upper|].
      split; [apply clean_Stripped|]. split; [now apply findall_complete_len|].
      split; auto. intros [H1 H2]. apply has_In in H1, H2. rewrite H1, H2 in Egm. discriminate.
  - intros (Hg & u & t & Hu & Ht & Hs & Hn & Hgm).
    apply Upcase_upper in Hu. subst u. apply Stripped_clean in Ht. rewrite <- Ht.
    pose proof (Sentence_findall _ _ Hs) as Hf.
    pose proof (Sentence_join _ _ Hs) as Hj.
    destruct t as [|c r].
    { simpl in Hf. congruence. }
    destruct (Ascii.eqb_spec c "%") as [->|_].
    { exfalso. eapply Sentence_not_percent; eauto. }
    rewrite Hf, Hj, dict_of_nodup by auto.
    rewrite !Nat.eqb_refl. cbn [negb].
    destruct (Nat.eqb_spec (length g) 0) as [E|_]; [destruct g; simpl in E; congruence|].
    destruct (has g "G" && has g "M") eqn:E; auto.
    apply andb_true_iff in E. destruct E as [E1 E2]. apply has_In in E1, E2. tauto.
Qed.

Lemma parse_line_raises s e : parse_line s = Raise e -> exists msg, e = GCodeException msg.
Proof.
  unfold parse_line. destruct (clean Outside (upper s)); [discriminate|].
  repeat match goal with |- context [if ?b then _ else _] => destruct b end;
    intros H; inversion H; eauto.
Qed.

(* ---------- C02 ---------- *)
Lemma parse_line_case s t : SameUpToCase s t -> parse_line s = parse_line t.
Proof. intros H. unfold parse_line. now rewrite (SameUpToCase_upper s t H). Qed.

(* ---------- C03 ---------- *)
Lemma upper_app a b : upper (a ++ b) = upper a ++ upper b.
Proof. apply map_app. Qed.

Lemma closes_blank a b c : is_close b = false -> is_lf b = false ->
  closes (a ++ b :: c) = closes (a ++ c).
Proof.
  intros H1 H2. induction a as [|x a IH]; simpl.
  - now rewrite H1, H2.
  - now rewrite IH.
Qed.

Lemma clean_blank a b c m : is_blank b = true -> is_lf b = false ->
  clean m (a ++ b :: c) = clean m (a ++ c).
Proof.
  intros H1 H2. assert (H3: is_close b = false).
  { revert H1. all_ascii b; vm_compute; congruence. }
  revert m. induction a as [|x a IH]; intros m; simpl.
  - rewrite H1, H2, H3. destruct m; auto.
  - rewrite closes_blank by auto. rewrite !IH. reflexivity.
Qed.

Lemma upper1_blank b : In b blanks -> upper1 b = b.
Proof.
  intros H. apply inb_In in H. revert H. all_ascii b; vm_compute; congruence.
Qed.

Lemma parse_line_blank a b c : In b blanks -> b <> LF ->
  parse_line (a ++ b :: c) = parse_line (a ++ c).
Proof.
  intros H1 H2. unfold parse_line. rewrite !upper_app.
  change (upper (b :: c)) with (upper1 b :: upper c). rewrite upper1_blank by auto.
  rewrite clean_blank; auto.
  - now apply is_blank_In.
  - apply (bool_iff_false _ _ (is_lf_eq b)). auto.
Qed.

Lemma upper1_not c d : upper1 c = d -> is_letter d = false -> c = d.
Proof.
  intros <-. all_ascii c; vm_compute; congruence.
Qed.

Lemma upper_In_not d s : is_letter d = false -> In d (upper s) -> In d s.
Proof.
  intros Hd H. apply in_map_iff in H. destruct H as (x & E & Hx).
  apply upper1_not in E; auto. now subst.
Qed.

Lemma CommentBody_upper b : CommentBody b -> CommentBody (upper b).
Proof. intros [H1 H2]. split; intros H; apply upper_In_not in H; auto. Qed.
Lemma LineBody_upper b : LineBody b -> LineBody (upper b).
Proof. intros H1 H. apply upper_In_not in H; auto. Qed.

Lemma OutsideComment_upper a : OutsideComment a -> OutsideComment (upper a).
Proof.
  induction 1 as [|b r Hb _ IH|b r Hb _ IH|c r H1 H2 _ IH]; simpl.
  - constructor.
  - change (upper1 "("%char) with "("%char. rewrite upper_app. simpl.
    change (upper1 ")"%char) with ")"%char. constructor; auto. now apply CommentBody_upper.
  - change (upper1 ";"%char) with ";"%char. rewrite upper_app. simpl.
    change (upper1 LF) with LF. constructor; auto. now apply LineBody_upper.
  - constructor; auto; intros E; apply upper1_not in E; auto.
Qed.

Lemma clean_app_outside a c : OutsideComment a ->
  clean Outside (a ++ c) = clean Outside a ++ clean Outside c.
Proof.
  induction 1 as [|b r Hb _ IH|b r Hb _ IH|x r H1 H2 _ IH]; simpl; auto.
  - rewrite <- app_assoc. simpl.
    assert (E: forall y, closes (b ++ ")"%char :: y) = true) by (intros; apply closes_iff; eauto).
    rewrite !E. rewrite !clean_InParen by auto. exact IH.
  - rewrite <- app_assoc. simpl.
    rewrite !clean_InLine by (auto; right; eauto). exact IH.
  - apply (bool_iff_false _ _ (is_open_eq x)) in H2. rewrite H2. cbn [andb].
    apply (bool_iff_false _ _ (is_semi_eq x)) in H1. rewrite H1.
    destruct (is_blank x); auto. simpl. now rewrite IH.
Qed.

Lemma parse_line_comment a b c : OutsideComment a -> CommentBody b ->
  parse_line (a ++ "("%char :: b ++ ")"%char :: c) = parse_line (a ++ c).
Proof.
  intros Ha Hb. unfold parse_line. rewrite !upper_app.
  rewrite !clean_app_outside by now apply OutsideComment_upper.
  assert (E: clean Outside (upper ("("%char :: b ++ ")"%char :: c)) = clean Outside (upper c)).
  { simpl. change (upper1 "("%char) with "("%char. rewrite upper_app. simpl.
    change (upper1 ")"%char) with ")"%char.
    assert (E: closes (upper b ++ ")"%char :: upper c) = true)
      by (apply closes_iff; eexists _, _; split; [reflexivity|now apply CommentBody_upper]).
    rewrite E. cbn. apply clean_InParen. now apply CommentBody_upper. }
  rewrite E. reflexivity.
Qed.

Lemma parse_line_semicolon a b : OutsideComment a -> LineBody b ->
  parse_line (a ++ ";"%char :: b) = parse_line a.
Proof.
  intros Ha Hb. unfold parse_line. rewrite !upper_app.
  rewrite clean_app_outside by now apply OutsideComment_upper.
  assert (E: clean Outside (upper (";"%char :: b)) = []).
  { simpl. change (upper1 ";"%char) with ";"%char. cbn.
    rewrite <- (app_nil_r (upper b)). rewrite clean_InLine; auto.
    - now apply LineBody_upper.
    - left; auto. }
  rewrite E, app_nil_r. reflexivity.
Qed.

(* ---------- C04 ---------- *)
Definition plain (c : ascii) : bool :=
  Ascii.eqb (upper1 c) c && negb (is_blank c) && negb (is_open c) && negb (is_semi c).

Lemma clean_plain t : forallb plain t = true -> clean Outside (upper t) = t.
Proof.
  induction t as [|c t IH]; simpl; auto. intros H. apply andb_true_iff in H. destruct H as [H1 H2].
  unfold plain in H1. repeat rewrite andb_true_iff in H1. destruct H1 as [[[E1 E2] E3] E4].
  apply Ascii.eqb_eq in E1. rewrite E1.
  destruct (is_blank c), (is_open c), (is_semi c); try discriminate. cbn. now rewrite IH.
Qed.

Lemma plain_capital c : In c capitals -> plain c = true.
Proof. intros H. apply inb_In in H. revert H. all_ascii c; vm_compute; congruence. Qed.
Lemma plain_num c : In c numchars -> plain c = true.
Proof. intros H. apply inb_In in H. revert H. all_ascii c; vm_compute; congruence. Qed.
Lemma plain_sign c : In c (chars "+-") -> plain c = true.
Proof. intros H. apply inb_In in H. revert H. all_ascii c; vm_compute; congruence. Qed.

Lemma plain_literal v : Literal v -> forallb plain v = true.
Proof.
  assert (Hb: forall b, Forall (fun c => In c numchars) b -> forallb plain b = true).
  { induction 1 as [|c b Hc _ IH]; simpl; auto. rewrite plain_num; auto. }
  destruct 1 as [b _ F|s b Hs _ F].
  - now apply Hb.
  - simpl. rewrite plain_sign, Hb; auto.
Qed.

Lemma plain_spell ws : Forall GoodWord ws -> forallb plain (spell ws) = true.
Proof.
  induction 1 as [|[l v] ws [Hl Hv] _ IH]; simpl; auto. unfold spell in *. simpl in *.
  rewrite plain_capital by auto. cbn. rewrite forallb_app, IH, plain_literal; auto.
Qed.

Lemma parse_spell ws : ws <> [] -> Forall GoodWord ws -> Compatible ws ->
  parse_line (spell ws) = Ok (Some ws).
Proof.
  intros H0 Hg Hc. apply parse_line_some. split; auto.
  exists (upper (spell ws)), (spell ws). split; [now apply Upcase_upper|].
  split.
  - rewrite <- (clean_plain (spell ws)) at 2 by now apply plain_spell. apply clean_Stripped.
  - split; auto. now apply Sentence_spell.
Qed.

Lemma lookup_In ps k v : NoDup (map fst ps) -> (lookup ps k = Some v <-> In (k, v) ps).
Proof.
  induction ps as [|[l w] r IH]; simpl; intros Hn; [split; [discriminate|tauto]|].
  inversion Hn as [|? ? Hl Hr]; subst.
  destruct (Ascii.eqb_spec l k) as [->|Hne].
  - split.
    + intros E. injection E as ->. auto.
    + intros [E|E]; [congruence|]. exfalso. apply Hl. apply (in_map fst) in E. exact E.
  - rewrite IH by auto. split; auto. intros [E|E]; auto. congruence.
Qed.

Lemma lookup_none ps k : lookup ps k = None <-> ~ In k (map fst ps).
Proof.
  induction ps as [|[l w] r IH]; simpl; [tauto|].
  destruct (Ascii.eqb_spec l k) as [->|Hne].
  - split; [discriminate|tauto].
  - rewrite IH. tauto.
Qed.

Lemma lookup_perm ws ws' k : NoDup (map fst ws) -> Permutation ws ws' ->
  lookup ws k = lookup ws' k.
Proof.
  intros Hn Hp. assert (Hn': NoDup (map fst ws')).
  { eapply Permutation_NoDup; [|eauto]. now apply Permutation_map. }
  destruct (lookup ws k) as [v|] eqn:E.
  - apply lookup_In in E; auto. symmetry. apply lookup_In; auto.
    eapply Permutation_in; eauto.
  - symmetry. apply lookup_none. apply lookup_none in E.
    intros H. apply E. eapply Permutation_in; [|exact H]. apply Permutation_sym.
    now apply Permutation_map.
Qed.

Lemma has_lookup ws k : has ws k = match lookup ws k with Some _ => true | None => false end.
Proof.
  induction ws as [|[l w] r IH]; simpl; auto. destruct (Ascii.eqb l k); auto.
Qed.

Lemma spell_permutation ws ws' : Forall GoodWord ws -> ws <> [] -> Compatible ws ->
  Permutation ws ws' ->
  exists g, parse_line (spell ws') = Ok (Some g) /\ (forall k, lookup g k = lookup ws k).
Proof.
  intros Hg H0 [Hn Hgm] Hp. exists ws'. split.
  - apply parse_spell.
    + intros E. subst. apply Permutation_sym, Permutation_nil in Hp. auto.
    + eapply Permutation_Forall; eauto.
    + assert (Hp' := Permutation_map fst Hp). split.
      * eapply Permutation_NoDup; eauto.
      * intros [H1 H2]. apply Hgm. split; eapply Permutation_in; try (apply Permutation_sym; eauto); auto.
  - intros k. symmetry. now apply lookup_perm.
Qed.

Lemma command_spec ws : Compatible ws ->
  (forall v, command ws = Some ("G"%char :: v) <-> In ("G"%char, v) ws) /\
  (forall v, command ws = Some ("M"%char :: v) <-> In ("M"%char, v) ws) /\
  (command ws = None <-> ~ In "G"%char (map fst ws) /\ ~ In "M"%char (map fst ws)).
Proof.
  intros [Hn Hgm]. unfold command.
  assert (HG := fun v => lookup_In ws "G" v Hn). assert (HM := fun v => lookup_In ws "M" v Hn).
  assert (NG := lookup_none ws "G"). assert (NM := lookup_none ws "M").
  assert (IG: forall v, In ("G"%char, v) ws -> In "G"%char (map fst ws))
    by (intros v H; apply (in_map fst) in H; exact H).
  assert (IM: forall v, In ("M"%char, v) ws -> In "M"%char (map fst ws))
    by (intros v H; apply (in_map fst) in H; exact H).
  destruct (lookup ws "G") as [g|] eqn:Eg, (lookup ws "M") as [m|] eqn:Em.
  - exfalso. apply Hgm. split; [eapply IG, HG|eapply IM, HM]; reflexivity.
  - split; [|split].
    + intros v. rewrite <- HG. split; congruence.
    + intros v. rewrite <- HM. split; discriminate.
    + split; [discriminate|]. intros [H _]. exfalso. apply H. eapply IG, HG; reflexivity.
  - split; [|split].
    + intros v. rewrite <- HG. split; discriminate.
    + intros v. rewrite <- HM. split; congruence.
    + split; [discriminate|]. intros [_ H]. exfalso. apply H. eapply IM, HM; reflexivity.
  - split; [|split].
    + intros v. rewrite <- HG. split; discriminate.
    + intros v. rewrite <- HM. split; discriminate.
    + tauto.
Qed.
