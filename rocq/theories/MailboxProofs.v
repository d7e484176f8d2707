(** Proofs about Mailbox.v. *)
From Coq Require Import ZArith Bool Lia List.
From Verif Require Import PyBase Dma Mailbox MailboxSpec.
Import ListNotations.
Local Open Scope Z_scope.

(** ** Messages *)
Lemma parse_message request args : request <> 0 -> 4 * Z.of_nat (length args) < 2 ^ 31 -> parse (message request args) = Some (request, args).
Proof.
  intros R B. unfold message, parse. set (n := Z.of_nat (length args)) in *. cbn [app].
  replace (4 * n / 4) with n by (rewrite Z.mul_comm, Z.div_mul; lia). assert (T: Z.to_nat n = length args) by apply Nat2Z.id. rewrite !T.
  assert (L: length (24 + 4 * n :: 0 :: request :: 4 * n :: 4 * n :: args ++ [0]) = (6 + length args)%nat).
  { cbn [length]. rewrite app_length. cbn [length]. lia. }
  rewrite L. replace (4 * Z.of_nat (6 + length args)) with (24 + 4 * n) by (unfold n; lia). rewrite !Z.eqb_refl.
  destruct (Z.eqb_spec request 0); [contradiction|]. replace (4 * n mod 4) with 0 by (rewrite Z.mul_comm, Z.mod_mul; lia).
  assert (0 <= n) by (unfold n; lia). destruct (Z.leb_spec 0 (4 * n)); [|lia]. destruct (Z.leb_spec (4 * n) (4 * n)); [|lia]. destruct (Z.ltb_spec (4 * n) (2 ^ 31)); [|lia].
  cbn [negb andb Z.eqb]. rewrite skipn_app, skipn_all, Nat.sub_diag. cbn [skipn app Z.eqb]. rewrite firstn_app, firstn_all, Nat.sub_diag. cbn [firstn]. now rewrite app_nil_r.
Qed.
Lemma knows_allocate size : understood (message 0x3000c [size; 4096; 12]) = Some (Allocate size 4096).
Proof. unfold understood. rewrite parse_message by (cbn; lia). reflexivity. Qed.
Lemma knows_lock h : understood (message 0x3000d [h]) = Some (Lock h).
Proof. unfold understood. rewrite parse_message by (cbn; lia). reflexivity. Qed.
Lemma knows_unlock h : understood (message 0x3000e [h]) = Some (Unlock h).
Proof. unfold understood. rewrite parse_message by (cbn; lia). reflexivity. Qed.
Lemma knows_release h : understood (message 0x3000f [h]) = Some (Release h).
Proof. unfold understood. rewrite parse_message by (cbn; lia). reflexivity. Qed.
Lemma words_handle h request : 0 <= request < 2 ^ 32 -> 0 <= h < 2 ^ 32 -> forallb is_u32 (message request [h]) = true.
Proof.
  intros R H. unfold message. cbn [length app forallb]. unfold is_u32.
  repeat match goal with |- context [?a <=? ?b] => destruct (Z.leb_spec a b); [|lia] | |- context [?a <? ?b] => destruct (Z.ltb_spec a b); [|cbn in *; lia] end. reflexivity.
Qed.

(** ** Lists without repetition *)
Lemma without_head x l : ~ In x l -> without x (x :: l) = l.
Proof. intros H. unfold without. cbn. destruct (Z.eq_dec x x); [|contradiction]. now apply notin_remove. Qed.
Lemma without_mid x l : forall a, NoDup (a ++ x :: l) -> without x (a ++ x :: l) = a ++ l.
Proof.
  induction a as [|y a IH]; cbn [app]; intros H.
  - apply without_head. now inversion H.
  - inversion H as [|? ? H1 H2]; subst. unfold without in *. cbn. destruct (Z.eq_dec x y) as [<-|D].
    + exfalso. apply H1. apply in_or_app. right. now left.
    + now rewrite IH.
Qed.

Section Proc.
Variable sys : os.
Hypothesis Hh : honest sys.
Hypothesis Hc : calm sys.

(** What the registered functions will give back. *)
Definition handles (e : list handler) : list Z := flat_map (fun h => match h with FreeMemory n _ => [n] | _ => [] end) e.
Definition descriptors (e : list handler) : list Z := flat_map (fun h => match h with FreeMemory _ fd => [fd] | _ => [] end) e.
Definition mappings (e : list handler) : list Z := flat_map (fun h => match h with Cleanup m => [m] | _ => [] end) e.

(** Everything that is held will be given back, but for [x] (blocks), [y] (locked
    blocks) and [z] (descriptors). *)
Record kept (x y z : list Z) (l : history) (e : list handler) : Prop := {
  kp_held : held l = x ++ handles e;
  kp_locked : locked l = y ++ handles e;
  kp_opened : opened l = z ++ descriptors e;
  kp_mapped : mapped l = mappings e;
  kp_sensible : all_sensible l;
  kp_d1 : NoDup (held l);
  kp_d2 : NoDup (locked l);
  kp_d3 : NoDup (opened l);
  kp_d4 : NoDup (mapped l);
  kp_sub : incl (locked l) (held l);
  kp_words : Forall (fun h => 0 <= h < 2 ^ 32) (held l)
}.

Lemma kept_start : kept [] [] [] [] [].
Proof. constructor; try reflexivity; try constructor. intros x []. Qed.

(** Calls that change nothing here. *)
Lemma kept_open_fails x y z l e d r : kept x y z l e -> (forall v, r = Ok v -> v < 0) -> kept x y z ((Open d, r) :: l) e.
Proof.
  intros [A1 A2 A3 A4 A5 A6 A7 A8 A9 A10 A11] H.
  assert (E: opened ((Open d, r) :: l) = opened l). { cbn. destruct r as [v|]; [|reflexivity]. destruct (Z.ltb_spec v 0) as [|G]; [reflexivity|]. specialize (H v eq_refl). lia. }
  constructor; rewrite ?E; cbn [held locked mapped all_sensible sensible]; try assumption. now split.
Qed.
Lemma kept_open x y z l e d fd : kept x y z l e -> 0 <= fd -> ~ In fd (opened l) -> kept x y (fd :: z) ((Open d, Ok fd) :: l) e.
Proof.
  intros [A1 A2 A3 A4 A5 A6 A7 A8 A9 A10 A11] P H.
  assert (E: opened ((Open d, Ok fd) :: l) = fd :: opened l). { cbn. destruct (Z.ltb_spec fd 0); [lia|reflexivity]. }
  constructor; rewrite ?E; cbn [held locked mapped all_sensible sensible]; try assumption; [cbn; now rewrite A3|now split|now constructor].
Qed.
Lemma kept_close x y z l e fd v : kept x y (fd :: z) l e -> kept x y z ((Close fd, Ok v) :: l) e.
Proof.
  intros [A1 A2 A3 A4 A5 A6 A7 A8 A9 A10 A11].
  assert (E: opened ((Close fd, Ok v) :: l) = z ++ descriptors e). { cbn [opened]. rewrite A3 in *. cbn [app] in *. apply without_head. now inversion A8. }
  constructor; rewrite ?E; cbn [held locked mapped all_sensible sensible]; try assumption; [reflexivity|split; [rewrite A3; now left|assumption]|]. rewrite A3 in A8. now inversion A8.
Qed.
Lemma kept_map_fails x y z l e fd n a ex : kept x y z l e -> In fd (opened l) -> a mod 4096 = 0 -> kept x y z ((Mmap fd n a, Raise ex) :: l) e.
Proof. intros [A1 A2 A3 A4 A5 A6 A7 A8 A9 A10 A11] H M. constructor; cbn [held locked opened mapped all_sensible sensible]; try assumption. tauto. Qed.
Lemma kept_words fd d ex x y z l e : kept x y z l e -> sensible l (Ioctl fd d) -> kept x y z ((Ioctl fd d, Raise ex) :: l) e.
Proof. intros [A1 A2 A3 A4 A5 A6 A7 A8 A9 A10 A11] H. constructor; cbn [held locked opened mapped all_sensible]; try assumption. tauto. Qed.

(** PhysicalMemory.__init__. *)
Lemma phys_init_kept a n x y z s : kept x y z (p_calls s) (p_exit s) ->
  match phys_init sys a n s with
  | (s', Ok _) => exists m, p_exit s' = Cleanup m :: p_exit s /\ kept x y z (p_calls s') (p_exit s')
  | (s', Raise _) => p_exit s' = p_exit s /\ exists w, (length w <= 1)%nat /\ kept x y (w ++ z) (p_calls s') (p_exit s')
  end.
Proof.
  intros K. unfold phys_init, open_dev, bind, sys_call, raise, ret, at_exit. cbn beta zeta.
  destruct (sys (p_calls s) (Open DevMem)) as [fd|ex] eqn:E1.
  2:{ cbn [p_exit p_calls]. split; [reflexivity|]. exists []. split; [cbn; lia|]. apply kept_open_fails; [exact K|]. intros v [=]. }
  destruct (Z.ltb_spec fd 0) as [F|F].
  { cbn [p_exit p_calls]. split; [reflexivity|]. exists []. split; [cbn; lia|]. apply kept_open_fails; [exact K|]. intros v [= <-]. exact F. }
  cbn [p_exit p_calls]. pose proof (Hh _ _ _ E1 F) as F2. pose proof (kept_open _ _ _ _ _ DevMem _ K F F2) as K2.
  assert (I: In fd (opened ((Open DevMem, Ok fd) :: p_calls s))). { cbn. destruct (Z.ltb_spec fd 0); [lia|]. now left. }
  set (l2 := (Open DevMem, Ok fd) :: p_calls s) in *. assert (AL: (a - a mod page) mod 4096 = 0).
  { unfold page. rewrite (Z.div_mod a 4096) at 1 by lia. replace (4096 * (a / 4096) + a mod 4096 - a mod 4096) with (a / 4096 * 4096) by lia. now apply Z.mod_mul. }
  set (off := a - a mod page) in *. clearbody off.
  destruct (sys l2 (Mmap fd n off)) as [m|ex] eqn:E2.
  2:{ cbn [p_exit p_calls]. split; [reflexivity|]. exists [fd]. split; [cbn; lia|]. now apply kept_map_fails. }
  pose proof (Hh _ _ _ E2) as F3. cbn in F3.
  destruct (sys ((Mmap fd n off, Ok m) :: l2) (Close fd)) as [v|ex] eqn:E3; [|exfalso; eapply Hc; [|exact E3]; exact Logic.I].
  cbn [p_exit p_calls]. exists m. split; [reflexivity|].
  destruct K2 as [A1 A2 A3 A4 A5 A6 A7 A8 A9 A10 A11].
  assert (E: opened ((Close fd, Ok v) :: (Mmap fd n off, Ok m) :: l2) = z ++ descriptors (p_exit s)).
  { cbn [opened]. rewrite A3 in *. cbn [app] in *. apply without_head. now inversion A8. }
  constructor; rewrite ?E; cbn [held locked mapped all_sensible sensible opened handles descriptors mappings flat_map app]; try assumption; try reflexivity.
  - now rewrite A4.
  - tauto.
  - rewrite A3 in A8. now inversion A8.
  - now constructor.
Qed.

(** The size is rounded up to whole pages. *)
Lemma pages_mod size : ((size + page - 1) / page * page) mod 4096 = 0.
Proof. unfold page. now apply Z.mod_mul. Qed.

(** CMAPhysicalMemory.__init__. *)
Lemma cma_init_kept size s : kept [] [] [] (p_calls s) (p_exit s) ->
  match cma_init sys size s with
  | (s', Ok _) => kept [] [] [] (p_calls s') (p_exit s')
  | (s', Raise _) => exists x y z, (length x <= 1)%nat /\ (length z <= 2)%nat /\ kept x y z (p_calls s') (p_exit s')
  end.
Proof.
  intros K. unfold cma_init. set (n := (size + page - 1) / page * page). assert (Hn := pages_mod size). fold n in Hn. clearbody n.
  unfold open_dev, bind at 1 2, sys_call, raise at 1, ret at 1. cbn beta zeta.
  destruct (sys (p_calls s) (Open DevVcio)) as [fd|ex] eqn:E1.
  2:{ cbn [p_exit p_calls]. exists [], [], []. split; [cbn; lia|]. split; [cbn; lia|]. apply kept_open_fails; [exact K|]. intros v [=]. }
  destruct (Z.ltb_spec fd 0) as [F|F].
  { cbn [p_exit p_calls]. exists [], [], []. split; [cbn; lia|]. split; [cbn; lia|]. apply kept_open_fails; [exact K|]. intros v [= <-]. exact F. }
  pose proof (Hh _ _ _ E1 F) as F2. pose proof (kept_open _ _ _ _ _ DevVcio _ K F F2) as K2.
  cbn [p_exit p_calls]. set (l2 := (Open DevVcio, Ok fd) :: p_calls s) in *. set (e := p_exit s) in *. clearbody l2. clear K E1 F2.
  unfold bind at 1, send_data at 1. cbn beta.
  destruct (forallb is_u32 (message 0x3000c [n; page; 12])) eqn:W.
  2:{ unfold raise; cbn [p_calls p_exit]. exists [], [], [fd]. split; [cbn; lia|]. split; [cbn; lia|]. exact K2. }
  unfold sys_call at 1. cbn [p_calls p_exit]. unfold page. set (d := message 0x3000c [n; 4096; 12]) in *.
  assert (U: understood d = Some (Allocate n 4096)) by apply knows_allocate.
  assert (S1: sensible l2 (Ioctl fd d)). { cbn [sensible]. rewrite U. split; [|tauto]. rewrite (kp_opened _ _ _ _ _ K2). now left. }
  destruct (sys l2 (Ioctl fd d)) as [h|ex] eqn:E2.
  2:{ exists [], [], [fd]. split; [cbn; lia|]. split; [cbn; lia|]. cbn [p_calls p_exit]. now apply kept_words. }
  pose proof (Hh _ _ _ E2) as F3. cbn beta iota in F3. rewrite U in F3. destruct F3 as [F3 F4].
  assert (K3: kept (if h =? 0 then [] else [h]) [] [fd] ((Ioctl fd d, Ok h) :: l2) e).
  { destruct K2 as [A1 A2 A3 A4 A5 A6 A7 A8 A9 A10 A11].
    assert (E: held ((Ioctl fd d, Ok h) :: l2) = (if h =? 0 then [] else [h]) ++ handles e). { cbn [held]. rewrite U. destruct (h =? 0); rewrite A1; reflexivity. }
    assert (Ne: NoDup (held ((Ioctl fd d, Ok h) :: l2))). { cbn [held]. rewrite U. destruct (Z.eqb_spec h 0); [exact A6|]. constructor; [now apply F4|exact A6]. }
    assert (Fe: Forall (fun h => 0 <= h < 2 ^ 32) (held ((Ioctl fd d, Ok h) :: l2))). { cbn [held]. rewrite U. destruct (h =? 0); [exact A11|]. now constructor. }
    assert (El: locked ((Ioctl fd d, Ok h) :: l2) = locked l2) by (cbn [locked]; now rewrite U).
    constructor; try assumption; rewrite ?El; try assumption; [now split|].
    intros q Q. apply A10 in Q. cbn [held]. rewrite U. destruct (h =? 0); [exact Q|now right]. }
  clear K2 S1. destruct (Z.eqb_spec h 0) as [Z0|Z0].
  { unfold raise; cbn [p_calls p_exit]. exists [], [], [fd]. split; [cbn; lia|]. split; [cbn; lia|]. exact K3. }
  assert (F5: ~ In h (held l2)) by now apply F4. assert (L5: ~ In h (locked l2)).
  { intros Q. apply F5. pose proof (kp_locked _ _ _ _ _ K3) as A. cbn [locked] in A. rewrite U in A. rewrite A in Q. cbn [app] in Q.
    pose proof (kp_held _ _ _ _ _ K3) as B. cbn [held] in B. rewrite U in B. destruct (Z.eqb_spec h 0); [contradiction|]. cbn [app] in B. injection B as B. now rewrite B. }
  assert (L6: ~ In h (locked ((Ioctl fd d, Ok h) :: l2))) by (cbn [locked]; now rewrite U).
  set (l3 := (Ioctl fd d, Ok h) :: l2) in *. clearbody l3. clear L5 F5 E2 U W F4 d.
  unfold bind at 1, send_data at 1. cbn beta. rewrite words_handle by (cbn; lia). unfold sys_call at 1. cbn [p_calls p_exit]. set (d := message 0x3000d [h]) in *.
  assert (U: understood d = Some (Lock h)) by apply knows_lock.
  assert (S1: sensible l3 (Ioctl fd d)). { cbn [sensible]. rewrite U. rewrite (kp_opened _ _ _ _ _ K3), (kp_held _ _ _ _ _ K3). split; [now left|]. split; [now left|exact L6]. }
  destruct (sys l3 (Ioctl fd d)) as [bus|ex] eqn:E2.
  2:{ exists [h], [], [fd]. split; [cbn; lia|]. split; [cbn; lia|]. cbn [p_calls p_exit]. now apply kept_words. }
  assert (K4: kept [h] (if bus =? 0 then [] else [h]) [fd] ((Ioctl fd d, Ok bus) :: l3) e).
  { destruct K3 as [A1 A2 A3 A4 A5 A6 A7 A8 A9 A10 A11].
    assert (El: locked ((Ioctl fd d, Ok bus) :: l3) = (if bus =? 0 then [] else [h]) ++ locked l3) by (cbn [locked]; rewrite U; now destruct (bus =? 0)).
    assert (Eh: held ((Ioctl fd d, Ok bus) :: l3) = held l3) by (cbn [held]; now rewrite U).
    constructor; try assumption; rewrite ?El, ?Eh; try assumption.
    - rewrite A2. reflexivity.
    - now split.
    - destruct (bus =? 0); [exact A7|]. now constructor.
    - destruct (bus =? 0); [exact A10|]. intros q [<-|Q]; [rewrite A1; now left|now apply A10]. }
  destruct (Z.eqb_spec bus 0) as [Z1|Z1].
  { unfold raise; cbn [p_calls p_exit]. exists [h], [], [fd]. split; [cbn; lia|]. split; [cbn; lia|]. exact K4. }
  unfold bind at 1. pose proof (phys_init_kept (phys_address bus) n [h] [h] [fd] {| p_calls := (Ioctl fd d, Ok bus) :: l3; p_exit := e |} K4) as P.
  destruct (phys_init sys (phys_address bus) n {| p_calls := (Ioctl fd d, Ok bus) :: l3; p_exit := e |}) as [s' [u|ex]].
  - destruct P as (m & Em & Km). unfold bind, at_exit, ret. cbn [p_calls p_exit]. rewrite Em in *. destruct Km as [A1 A2 A3 A4 A5 A6 A7 A8 A9 A10 A11].
    constructor; try assumption; cbn [handles descriptors mappings flat_map app] in *; assumption.
  - destruct P as (Em & w & Hw & Km). exists [h], [h], (w ++ [fd]). split; [cbn; lia|]. split; [rewrite app_length; cbn; lia|]. exact Km.
Qed.

Lemma create_kept o s : kept [] [] [] (p_calls s) (p_exit s) ->
  match create sys o s with
  | (s', Ok _) => kept [] [] [] (p_calls s') (p_exit s')
  | (s', Raise _) => exists x y z, (length x <= 1)%nat /\ (length z <= 2)%nat /\ kept x y z (p_calls s') (p_exit s')
  end.
Proof.
  intros K. destruct o as [a|n]; cbn [create].
  - pose proof (phys_init_kept a page [] [] [] s K) as P. destruct (phys_init sys a page s) as [s' [u|ex]].
    + destruct P as (m & Em & Km). exact Km.
    + destruct P as (Em & w & Hw & Km). exists [], [], (w ++ []). split; [cbn; lia|]. split; [rewrite app_length; cbn; lia|]. exact Km.
  - unfold bind. pose proof (cma_init_kept n s K) as P. destruct (cma_init sys n s) as [s' [u|ex]]; exact P.
Qed.
Lemma create_all_kept l : forall s, kept [] [] [] (p_calls s) (p_exit s) ->
  match create_all sys l s with
  | (s', Ok _) => kept [] [] [] (p_calls s') (p_exit s')
  | (s', Raise _) => exists x y z, (length x <= 1)%nat /\ (length z <= 2)%nat /\ kept x y z (p_calls s') (p_exit s')
  end.
Proof.
  induction l as [|o l IH]; intros s K; [exact K|]. cbn [create_all]. unfold bind. pose proof (create_kept o s K) as P.
  destruct (create sys o s) as [s' [u|ex]]; [|exact P]. now apply IH.
Qed.

(** One registered function. *)
Lemma handler_kept x y z h e l : kept x y z l (h :: e) ->
  kept x y z (p_calls (fst (run_handler sys h {| p_calls := l; p_exit := [] |}))) e /\ p_exit (fst (run_handler sys h {| p_calls := l; p_exit := [] |})) = [].
Proof.
  intros [A1 A2 A3 A4 A5 A6 A7 A8 A9 A10 A11]. destruct h as [m|h fd]; cbn [handles descriptors mappings flat_map app] in A1, A2, A3, A4; fold (handles e) in A1, A2; fold (descriptors e) in A3; fold (mappings e) in A4.
  - cbn [run_handler]. unfold bind, sys_call, ret. cbn [p_calls p_exit]. destruct (sys l (Unmap m)) as [v|ex] eqn:E; [|exfalso; eapply Hc; [|exact E]; exact Logic.I].
    cbn [fst p_calls p_exit]. split; [|reflexivity].
    assert (Em: mapped ((Unmap m, Ok v) :: l) = mappings e). { cbn [mapped]. rewrite A4 in *. apply without_head. now inversion A9. }
    constructor; try assumption; rewrite ?Em; [split; [cbn; rewrite A4; now left|assumption]|]. rewrite A4 in A9. now inversion A9.
  - assert (Wh: 0 <= h < 2 ^ 32). { rewrite Forall_forall in A11. apply A11. rewrite A1. apply in_or_app. right. now left. }
    cbn [run_handler]. unfold bind, send_data, sys_call, ret. rewrite !words_handle by (cbn; lia). cbn [p_calls p_exit].
    set (d1 := message 0x3000e [h]). set (d2 := message 0x3000f [h]).
    assert (U1: understood d1 = Some (Unlock h)) by apply knows_unlock. assert (U2: understood d2 = Some (Release h)) by apply knows_release.
    destruct (sys l (Ioctl fd d1)) as [v1|ex] eqn:E1; [|exfalso; eapply Hc; [|exact E1]; cbn [gives_back]; rewrite U1; exact Logic.I]. cbn [p_calls p_exit].
    destruct (sys _ (Ioctl fd d2)) as [v2|ex] eqn:E2; [|exfalso; eapply Hc; [|exact E2]; cbn [gives_back]; rewrite U2; exact Logic.I]. cbn [p_calls p_exit].
    destruct (sys _ (Close fd)) as [v3|ex] eqn:E3; [|exfalso; eapply Hc; [|exact E3]; exact Logic.I]. cbn [fst p_calls p_exit]. split; [|reflexivity].
    assert (D1: NoDup (x ++ handles e)) by (rewrite A1 in A6; exact (NoDup_remove_1 _ _ _ A6)).
    assert (D2: NoDup (y ++ handles e)) by (rewrite A2 in A7; exact (NoDup_remove_1 _ _ _ A7)).
    assert (D3: NoDup (z ++ descriptors e)) by (rewrite A3 in A8; exact (NoDup_remove_1 _ _ _ A8)).
    assert (Eh: held ((Close fd, Ok v3) :: (Ioctl fd d2, Ok v2) :: (Ioctl fd d1, Ok v1) :: l) = x ++ handles e).
    { cbn [held]. rewrite U1, U2, A1. apply without_mid. now rewrite <- A1. }
    assert (El: locked ((Close fd, Ok v3) :: (Ioctl fd d2, Ok v2) :: (Ioctl fd d1, Ok v1) :: l) = y ++ handles e).
    { cbn [locked]. rewrite U1, U2, A2. apply without_mid. now rewrite <- A2. }
    assert (Eo: opened ((Close fd, Ok v3) :: (Ioctl fd d2, Ok v2) :: (Ioctl fd d1, Ok v1) :: l) = z ++ descriptors e).
    { cbn [opened]. rewrite A3. apply without_mid. now rewrite <- A3. }
    assert (Ifd: In fd (opened l)) by (rewrite A3; apply in_or_app; right; now left).
    assert (Ih: In h (held l)) by (rewrite A1; apply in_or_app; right; now left).
    assert (Il: In h (locked l)) by (rewrite A2; apply in_or_app; right; now left).
    assert (Nl: ~ In h (y ++ handles e)) by (rewrite A2 in A7; exact (NoDup_remove_2 _ _ _ A7)).
    constructor; rewrite ?Eh, ?El, ?Eo; try assumption; try reflexivity.
    + cbn [all_sensible sensible opened held locked]. rewrite U1, U2. split; [exact Ifd|]. split; [|split; [|exact A5]].
      * split; [exact Ifd|]. split; [exact Ih|]. rewrite A2, without_mid; [exact Nl|]. now rewrite <- A2.
      * tauto.
    + intros q Q. assert (Hq: In q (held l)). { apply A10. rewrite A2. apply in_app_or in Q. apply in_or_app. destruct Q; [now left|right; now right]. }
      rewrite A1 in Hq. apply in_app_or in Hq. apply in_or_app. destruct Hq as [Hq|[<-|Hq]]; [now left|contradiction|now right].
    + rewrite A1 in A11. rewrite Forall_app in *. destruct A11 as [B1 B2]. split; [exact B1|]. now inversion B2.
Qed.
Lemma handlers_kept x y z e : forall l, kept x y z l e -> kept x y z (p_calls (run_handlers sys e {| p_calls := l; p_exit := [] |})) [].
Proof.
  induction e as [|h e IH]; intros l K; [exact K|]. cbn [run_handlers]. destruct (handler_kept x y z h e l K) as [K' E].
  destruct (fst (run_handler sys h {| p_calls := l; p_exit := [] |})) as [l' e']. cbn [p_calls p_exit] in *. subst e'. now apply IH.
Qed.

(** The statements. *)
Lemma all_given_back objs s : create_all sys objs proc0 = (s, Ok tt) -> nothing_held (exit_process sys s) /\ all_sensible (exit_process sys s).
Proof.
  intros E. pose proof (create_all_kept objs proc0 kept_start) as K. rewrite E in K. apply handlers_kept in K. fold (exit_process sys s) in K.
  destruct K as [A1 A2 A3 A4 A5 _ _ _ _ _ _]. split; [|exact A5]. repeat split; assumption.
Qed.
Lemma rest_given_back objs s ex : create_all sys objs proc0 = (s, Raise ex) ->
  (length (held (exit_process sys s)) <= 1)%nat /\ (length (opened (exit_process sys s)) <= 2)%nat /\ mapped (exit_process sys s) = [] /\ all_sensible (exit_process sys s).
Proof.
  intros E. pose proof (create_all_kept objs proc0 kept_start) as K. rewrite E in K. destruct K as (x & y & z & Hx & Hz & K). apply handlers_kept in K. fold (exit_process sys s) in K.
  destruct K as [A1 A2 A3 A4 A5 _ _ _ _ _ _]. rewrite A1, A3, A4. cbn [handles descriptors mappings flat_map]. rewrite !app_nil_r. repeat split; assumption.
Qed.
End Proc.

(** ** The block *)
Lemma phys_address_mod bus : 0 <= bus < 2 ^ 32 -> phys_address bus = bus mod 2 ^ 30.
Proof.
  intros B. unfold phys_address. rewrite <- Z.land_ones by lia. apply Z.bits_inj'. intros i Hi. rewrite !Z.land_spec, Z.lnot_spec, Z.shiftl_spec by lia.
  destruct (Z.ltb_spec i 30).
  - rewrite Z.ones_spec_low by lia. rewrite (Z.testbit_neg_r 3) by lia. reflexivity.
  - rewrite Z.ones_spec_high by lia. destruct (Z.ltb_spec i 32).
    + assert (C: i = 30 \/ i = 31) by lia. destruct C as [-> | ->]; reflexivity || (cbn; now rewrite !andb_false_r).
    + rewrite andb_false_r. replace (Z.testbit bus i) with false; [reflexivity|]. symmetry. apply Z.bits_above_log2; [lia|].
      destruct (Z.eq_dec bus 0) as [->|]; [cbn; lia|]. assert (Z.log2 bus < 32); [|lia]. apply Z.log2_lt_pow2; lia.
Qed.
Lemma pages_size n : n <= (n + page - 1) / page * page < n + page.
Proof. unfold page. pose proof (Z.div_mod (n + 4096 - 1) 4096 ltac:(lia)). pose proof (Z.mod_pos_bound (n + 4096 - 1) 4096 ltac:(lia)). lia. Qed.
(** A buffer that was created: the calls. *)
Lemma cma_init_calls sys size s s' bus n : cma_init sys size s = (s', Ok (bus, n)) ->
  n = (size + page - 1) / page * page /\ bus <> 0 /\ exists fd h fd2 m v,
    p_calls s' = (Close fd2, Ok v) :: (Mmap fd2 n (phys_address bus - phys_address bus mod page), Ok m) :: (Open DevMem, Ok fd2) ::
      (Ioctl fd (message 0x3000d [h]), Ok bus) :: (Ioctl fd (message 0x3000c [n; 4096; 12]), Ok h) :: (Open DevVcio, Ok fd) :: p_calls s /\
    h <> 0 /\ p_exit s' = FreeMemory h fd :: Cleanup m :: p_exit s /\
    sys ((Ioctl fd (message 0x3000c [n; 4096; 12]), Ok h) :: (Open DevVcio, Ok fd) :: p_calls s) (Ioctl fd (message 0x3000d [h])) = Ok bus.
Proof.
  unfold cma_init. set (k := (size + page - 1) / page * page). clearbody k.
  unfold phys_init, open_dev, send_data, bind, sys_call, at_exit, raise, ret. cbn beta zeta. intros H.
  destruct (sys (p_calls s) (Open DevVcio)) as [fd|] eqn:E1; [|discriminate]. cbn [p_calls p_exit] in H.
  destruct (fd <? 0); [discriminate|]. cbn [p_calls p_exit] in H. unfold page in *.
  destruct (forallb is_u32 (message 0x3000c [k; 4096; 12])); [|discriminate]. cbn [p_calls p_exit] in H.
  destruct (sys _ (Ioctl fd (message 0x3000c [k; 4096; 12]))) as [h|] eqn:E2; [|discriminate]. cbn [p_calls p_exit] in H.
  destruct (Z.eqb_spec h 0) as [|Nh]; [discriminate|].
  destruct (forallb is_u32 (message 0x3000d [h])); [|discriminate]. cbn [p_calls p_exit] in H.
  destruct (sys _ (Ioctl fd (message 0x3000d [h]))) as [b|] eqn:E3; [|discriminate]. cbn [p_calls p_exit] in H.
  destruct (Z.eqb_spec b 0) as [|Nb]; [discriminate|].
  destruct (sys _ (Open DevMem)) as [fd2|] eqn:E4; [|discriminate]. cbn [p_calls p_exit] in H.
  destruct (fd2 <? 0); [discriminate|]. cbn [p_calls p_exit] in H.
  destruct (sys _ (Mmap fd2 k _)) as [m|] eqn:E5; [|discriminate]. cbn [p_calls p_exit] in H.
  destruct (sys _ (Close fd2)) as [v|] eqn:E6; [|discriminate]. cbn [p_calls p_exit] in H.
  injection H as <- <- <-. split; [reflexivity|]. split; [exact Nb|]. exists fd, h, fd2, m, v. cbn [p_calls p_exit]. repeat split; try reflexivity; assumption.
Qed.
Lemma block_calls sys size s s' bus n : honest sys ->
  (forall l fd d h v, sys l (Ioctl fd d) = Ok v -> understood d = Some (Lock h) -> v mod 4096 = 0) ->
  cma_init sys size s = (s', Ok (bus, n)) ->
  size <= n < size + 4096 /\ exists fd d1 h d2 fd2 m v,
    p_calls s' = (Close fd2, Ok v) :: (Mmap fd2 n (bus mod 2 ^ 30), Ok m) :: (Open DevMem, Ok fd2) ::
      (Ioctl fd d2, Ok bus) :: (Ioctl fd d1, Ok h) :: (Open DevVcio, Ok fd) :: p_calls s /\
    understood d1 = Some (Allocate n 4096) /\ h <> 0 /\ understood d2 = Some (Lock h) /\ bus <> 0.
Proof.
  intros Hh Ha E. destruct (cma_init_calls sys size s s' bus n E) as (En & Nb & fd & h & fd2 & m & v & Ec & Nh & _ & El).
  split; [rewrite En; exact (pages_size size)|]. exists fd, (message 0x3000c [n; 4096; 12]), h, (message 0x3000d [h]), fd2, m, v.
  split; [|split; [apply knows_allocate|split; [exact Nh|split; [apply knows_lock|exact Nb]]]].
  assert (W: 0 <= bus < 2 ^ 32) by exact (proj1 (Hh _ _ _ El)). assert (M: bus mod 4096 = 0) by (eapply Ha; [exact El|apply knows_lock]).
  rewrite Ec, phys_address_mod by exact W. replace (bus mod 2 ^ 30 - (bus mod 2 ^ 30) mod page) with (bus mod 2 ^ 30); [reflexivity|].
  unfold page. change (2 ^ 30) with (4096 * 262144). rewrite Z.rem_mul_r by lia. rewrite M, Z.add_0_l, Z.mul_comm, Z.mod_mul by lia. lia.
Qed.
