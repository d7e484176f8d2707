(** Properties C01-C04: the G-code line parser (cnc/gcode.py). *)
From Coq Require Import String Ascii Bool Arith ZArith List Permutation.
From Verif Require Import PyBase GCode GCodeSpec GCodeProofs.
Import ListNotations.

(** C01. The three outcomes of parse_line, against the grammar. *)
Theorem C01_none_iff (s : text) :
  parse_line s = Ok None <->
  exists u t, Upcase s u /\ Stripped u t /\ (t = [] \/ exists r, t = "%"%char :: r).
Proof. exact (parse_line_none s). Qed.
Print Assumptions C01_none_iff.
Example C01_none_iff_ex : exists u t,
  Upcase (tx " (x) % g1 ; y") u /\ Stripped u t /\ (t = [] \/ exists r, t = "%"%char :: r).
Proof. apply C01_none_iff. vm_compute. reflexivity. Qed.

Theorem C01_accept_iff (s : text) (g : gcode) :
  parse_line s = Ok (Some g) <->
  g <> [] /\ exists u t, Upcase s u /\ Stripped u t /\ Sentence t g /\ Compatible g.
Proof. exact (parse_line_some s g). Qed.
Print Assumptions C01_accept_iff.
Example C01_accept_iff_ex :
  let g := [("G"%char, tx "1"); ("X"%char, tx "-1.5"); ("F"%char, tx "+20")] in
  g <> [] /\ exists u t, Upcase (tx "g1 (a;b) x-1.5 f+20 ; end") u /\ Stripped u t
                         /\ Sentence t g /\ Compatible g.
Proof. apply C01_accept_iff. vm_compute. reflexivity. Qed.

Theorem C01_otherwise_GCodeException (s : text) (e : exn) :
  parse_line s = Raise e -> exists msg, e = GCodeException msg.
Proof. exact (parse_line_raises s e). Qed.
Print Assumptions C01_otherwise_GCodeException.
Example C01_otherwise_GCodeException_ex :
  parse_line (tx "G1 X2 (unclosed") = Raise (GCodeException "extra characters in line")
  /\ parse_line (tx "G1 M2") = Raise (GCodeException "g and m command found")
  /\ parse_line (tx "X1 x2") = Raise (GCodeException "duplicated gcode entries")
  /\ parse_line (tx "hello") = Raise (GCodeException "gcode not found").
Proof. vm_compute. auto. Qed.

(** The grammar used in C01 assigns at most one reading to a line. *)
Theorem C01_stripping_is_a_function (s t t' : text) :
  (exists t0, Stripped s t0) /\ (Stripped s t -> Stripped s t' -> t = t').
Proof. exact (conj (ex_intro _ _ (clean_Stripped s)) (Stripped_fun s t t')). Qed.
Print Assumptions C01_stripping_is_a_function.
Example C01_stripping_is_a_function_ex : Stripped (tx "(a)G1 ;z") (tx "G1").
Proof. exact (clean_Stripped (tx "(a)G1 ;z")). Qed.

(** C02. Letter case is irrelevant. *)
Theorem C02_case_insensitive (s t : text) :
  SameUpToCase s t -> parse_line s = parse_line t.
Proof. exact (parse_line_case s t). Qed.
Print Assumptions C02_case_insensitive.
Example C02_case_insensitive_ex : SameUpToCase (tx "g1Xx") (tx "G1xX").
Proof.
  apply Forall2_cons; [right; exists 6; vm_compute; auto|].
  apply Forall2_cons; [left; reflexivity|].
  apply Forall2_cons; [right; exists 23; vm_compute; auto|].
  apply Forall2_cons; [right; exists 23; vm_compute; auto|].
  constructor.
Qed.

(** C03. Blanks and comments are irrelevant. *)
Theorem C03_blank_anywhere (a c : text) (b : ascii) :
  In b blanks -> b <> LF -> parse_line (a ++ b :: c) = parse_line (a ++ c).
Proof. exact (parse_line_blank a b c). Qed.
Print Assumptions C03_blank_anywhere.
Example C03_blank_anywhere_ex :
  In " "%char blanks /\ " "%char <> LF
  /\ parse_line (tx "G1X1" ++ " "%char :: tx "0") = Ok (Some [("G"%char, tx "1"); ("X"%char, tx "10")]).
Proof. split; [|split]; [vm_compute; tauto|discriminate|vm_compute; reflexivity]. Qed.

Theorem C03_comment_anywhere_outside (a b c : text) :
  OutsideComment a -> CommentBody b ->
  parse_line (a ++ "("%char :: b ++ ")"%char :: c) = parse_line (a ++ c).
Proof. exact (parse_line_comment a b c). Qed.
Print Assumptions C03_comment_anywhere_outside.
Example C03_comment_anywhere_outside_ex :
  OutsideComment (tx "G1 (one) X") /\ CommentBody (tx "two ; (three").
Proof.
  split.
  - do 3 (apply oc_char; [discriminate|discriminate|]).
    apply (oc_comment (tx "one") (tx " X")).
    + split; vm_compute; intuition discriminate.
    + do 2 (apply oc_char; [discriminate|discriminate|]). constructor.
  - split; vm_compute; intuition discriminate.
Qed.

Theorem C03_semicolon_at_end (a b : text) :
  OutsideComment a -> LineBody b -> parse_line (a ++ ";"%char :: b) = parse_line a.
Proof. exact (parse_line_semicolon a b). Qed.
Print Assumptions C03_semicolon_at_end.
Example C03_semicolon_at_end_ex :
  OutsideComment (tx "G1 X2") /\ LineBody (tx " text ) ( ; more").
Proof.
  split.
  - repeat (apply oc_char; [discriminate|discriminate|]). constructor.
  - vm_compute; intuition discriminate.
Qed.

(** C04. Print/parse round trip, word order, command word. *)
Theorem C04_round_trip (ws : list word) :
  ws <> [] -> Forall GoodWord ws -> Compatible ws -> parse_line (spell ws) = Ok (Some ws).
Proof. exact (parse_spell ws). Qed.
Print Assumptions C04_round_trip.

Example C04_round_trip_ex :
  let ws := [("M"%char, tx "104"); ("S"%char, tx "-.5"); ("N"%char, tx "1.2.3")] in
  ws <> [] /\ Forall GoodWord ws /\ Compatible ws.
Proof.
  assert (N: forall s, forallb is_numch s = true -> Forall (fun c => In c numchars) s).
  { intros s H. apply Forall_forall. intros c Hc. apply is_numch_In.
    eapply forallb_forall in H; eauto. }
  simpl. split; [discriminate|]. split.
  - repeat apply Forall_cons; try apply Forall_nil;
      (split; [apply is_letter_In; reflexivity|simpl]).
    + apply lit_plain; [discriminate|]. now apply N.
    + apply (lit_signed "-" (tx ".5")); [vm_compute; tauto|discriminate|]. now apply N.
    + apply lit_plain; [discriminate|]. now apply N.
  - split; simpl.
    + repeat constructor; simpl; intuition discriminate.
    + intuition discriminate.
Qed.

Theorem C04_order_irrelevant (ws ws' : list word) :
  Forall GoodWord ws -> ws <> [] -> Compatible ws -> Permutation ws ws' ->
  exists g, parse_line (spell ws') = Ok (Some g) /\ (forall k, lookup g k = lookup ws k).
Proof. exact (spell_permutation ws ws'). Qed.
Print Assumptions C04_order_irrelevant.
Example C04_order_irrelevant_ex :
  let ws := [("X"%char, tx "1"); ("G"%char, tx "0")] in
  let ws' := [("G"%char, tx "0"); ("X"%char, tx "1")] in
  Permutation ws ws' /\ parse_line (spell ws') <> parse_line (spell ws).
Proof. simpl. split; [apply perm_swap|vm_compute; discriminate]. Qed.

Theorem C04_command_word (ws : list word) :
  Compatible ws ->
  (forall v, command ws = Some ("G"%char :: v) <-> In ("G"%char, v) ws) /\
  (forall v, command ws = Some ("M"%char :: v) <-> In ("M"%char, v) ws) /\
  (command ws = None <-> ~ In "G"%char (map fst ws) /\ ~ In "M"%char (map fst ws)).
Proof. exact (command_spec ws). Qed.
Print Assumptions C04_command_word.
Example C04_command_word_ex :
  let ws := [("X"%char, tx "1"); ("M"%char, tx "30")] in
  Compatible ws /\ command ws = Some (tx "M30").
Proof.
  simpl. split; [|reflexivity]. split; simpl.
  - repeat constructor; simpl; intuition discriminate.
  - intuition discriminate.
Qed.
