(** Specification of the G-code line format, independent of the parser model
    in GCode.v: character classes are listed explicitly and the grammar is given
    by inductive relations. Source of the requirements: the two regular
    expressions and their comments in cnc/gcode.py:5-8 and the error conditions
    of cnc/gcode.py:94-108. *)
From Coq Require Import String Ascii ZArith Reals List.
Import ListNotations.

Definition chars (s : string) : list ascii := list_ascii_of_string s.

(** Upper and lower case letters, in the same order (gcode.py:6,92). *)
Definition capitals : list ascii := chars "ABCDEFGHIJKLMNOPQRSTUVWXYZ".
Definition smalls : list ascii := chars "abcdefghijklmnopqrstuvwxyz".

(** Blank characters, \s (gcode.py:8): HT LF VT FF CR FS GS RS US SP. *)
Definition blanks : list ascii :=
  map ascii_of_nat [9; 10; 11; 12; 13; 28; 29; 30; 31; 32].
Definition LF : ascii := ascii_of_nat 10.

(** Upper case of a character (gcode.py:92). *)
Inductive Upcase1 : ascii -> ascii -> Prop :=
| up_small i c d : nth_error smalls i = Some c -> nth_error capitals i = Some d -> Upcase1 c d
| up_other c : ~ In c smalls -> Upcase1 c c.
Definition Upcase (s u : list ascii) : Prop := Forall2 Upcase1 s u.

(** Two characters that are the same letter up to case, or equal. *)
Definition SameLetter (c d : ascii) : Prop :=
  c = d \/ exists i, (nth_error smalls i = Some c \/ nth_error capitals i = Some c)
                  /\ (nth_error smalls i = Some d \/ nth_error capitals i = Some d).
Definition SameUpToCase (s t : list ascii) : Prop := Forall2 SameLetter s t.

(** Text of a '(...)' comment and of a ';' comment (gcode.py:7-8). *)
Definition CommentBody (b : list ascii) : Prop := ~ In ")"%char b /\ ~ In LF b.
Definition LineBody (b : list ascii) : Prop := ~ In LF b.
Definition AtLineEnd (r : list ascii) : Prop := r = [] \/ exists r', r = LF :: r'.

(** [Stripped s t]: [t] is [s] without blanks and comments (gcode.py:7-8,93).
    An opening parenthesis that is not closed in the same line is an ordinary
    character. *)
Inductive Stripped : list ascii -> list ascii -> Prop :=
| st_nil : Stripped [] []
| st_blank c r t : In c blanks -> Stripped r t -> Stripped (c :: r) t
| st_comment b r t : CommentBody b -> Stripped r t ->
    Stripped ("("%char :: b ++ ")"%char :: r) t
| st_line b r t : LineBody b -> AtLineEnd r -> Stripped r t ->
    Stripped (";"%char :: b ++ r) t
| st_other c r t : ~ In c blanks -> c <> ";"%char ->
    ~ (c = "("%char /\ exists b r', r = b ++ ")"%char :: r' /\ CommentBody b) ->
    Stripped r t -> Stripped (c :: r) (c :: t).

(** A literal: optional sign, then one or more digits or dots (gcode.py:6). *)
Definition numchars : list ascii := chars "0123456789.".
Inductive Literal : list ascii -> Prop :=
| lit_plain b : b <> [] -> Forall (fun c => In c numchars) b -> Literal b
| lit_signed s b : In s (chars "+-") -> b <> [] ->
    Forall (fun c => In c numchars) b -> Literal (s :: b).

(** [Sentence t ws]: [t] is the concatenation of the words [ws] (gcode.py:6,98-102). *)
Inductive Sentence : list ascii -> list (ascii * list ascii) -> Prop :=
| sn_nil : Sentence [] []
| sn_word l v r ws : In l capitals -> Literal v -> Sentence r ws ->
    Sentence (l :: v ++ r) ((l, v) :: ws).

(** Different letters, and not both a G and an M word (gcode.py:104-108). *)
Definition Compatible (ws : list (ascii * list ascii)) : Prop :=
  NoDup (map fst ws) /\ ~ (In "G"%char (map fst ws) /\ In "M"%char (map fst ws)).

(** Text of a word list. *)
Definition spell (ws : list (ascii * list ascii)) : list ascii :=
  concat (map (fun w => fst w :: snd w) ws).

(** Well-formed words. *)
Definition GoodWord (w : ascii * list ascii) : Prop :=
  In (fst w) capitals /\ Literal (snd w).

(** A prefix of a line that ends outside of every comment and contains no
    unclosed parenthesis: positions where a comment may be inserted. *)
Inductive OutsideComment : list ascii -> Prop :=
| oc_nil : OutsideComment []
| oc_comment b r : CommentBody b -> OutsideComment r ->
    OutsideComment ("("%char :: b ++ ")"%char :: r)
| oc_line b r : LineBody b -> OutsideComment r ->
    OutsideComment (";"%char :: b ++ LF :: r)
| oc_char c r : c <> ";"%char -> c <> "("%char -> OutsideComment r ->
    OutsideComment (c :: r).

(** Value of a literal as a real number; no value if it has no digit or more
    than one dot (gcode.py:44, Python's float()). *)
Definition digits : list ascii := chars "0123456789".
Definition digit_value (c : ascii) : R :=
  IZR (Z.of_nat (nat_of_ascii c) - 48).
(** Value of a digit string read from the left. *)
Fixpoint int_value (acc : R) (s : list ascii) : R :=
  match s with [] => acc | c :: r => int_value (10 * acc + digit_value c)%R r end.
Inductive NumberValue : list ascii -> R -> Prop :=
| nv_int a : a <> [] -> Forall (fun c => In c digits) a -> NumberValue a (int_value 0 a)
| nv_frac a b : a ++ b <> [] -> Forall (fun c => In c digits) (a ++ b) ->
    NumberValue (a ++ "."%char :: b)
      (int_value 0 a + int_value 0 b / 10 ^ (length b))%R.
Inductive LiteralValue : list ascii -> R -> Prop :=
| lv_plain a x : NumberValue a x -> LiteralValue a x
| lv_plus a x : NumberValue a x -> LiteralValue ("+"%char :: a) x
| lv_minus a x : NumberValue a x -> LiteralValue ("-"%char :: a) (- x)%R.
