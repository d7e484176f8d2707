(** Model of cnc/gcode.py: the line parser.

    Text is a list of 8-bit characters. Codes 0-127 are ASCII and treated
    exactly as Python 3 does; codes 128-255 stand for any other character,
    which is never blank, never changed by upper() and never part of a word
    (simplification: the few non-ASCII characters whose upper() is an ASCII
    letter, and non-ASCII blanks, are outside of the model). *)
From Coq Require Import String Ascii Bool Arith ZArith List.
From Verif Require Import PyBase.
Import ListNotations.

Definition text := list ascii.

Definition code (c : ascii) : nat := nat_of_ascii c.

(** str.upper() on one ASCII character, cnc/gcode.py:92. *)
Definition upper1 (c : ascii) : ascii :=
  if (97 <=? code c) && (code c <=? 122) then ascii_of_nat (code c - 32) else c.

(** str.upper(), cnc/gcode.py:92. *)
Definition upper (s : text) : text := map upper1 s.

(** The regular expression class \s on ASCII for Python 3 str patterns,
    cnc/gcode.py:8: tab, LF, VT, FF, CR, the separators 28-31, and space. *)
Definition is_blank (c : ascii) : bool :=
  ((9 <=? code c) && (code c <=? 13)) || ((28 <=? code c) && (code c <=? 32)).

(** Line feed: the only character that "." does not match, cnc/gcode.py:8. *)
Definition is_lf (c : ascii) : bool := code c =? 10.
Definition is_open (c : ascii) : bool := code c =? 40.
Definition is_close (c : ascii) : bool := code c =? 41.
Definition is_semi (c : ascii) : bool := code c =? 59.

(** Does "\(.*?\)" match after an opening parenthesis, i.e. is there a closing
    parenthesis before the next line feed?  cnc/gcode.py:8. *)
Fixpoint closes (s : text) : bool :=
  match s with
  | [] => false
  | c :: r => if is_close c then true else if is_lf c then false else closes r
  end.

(** Scanner position: outside of any match, inside "\(.*?\)", inside ";.*". *)
Inductive cmode := Outside | InParen | InLine.

(** re.sub(clean_pattern, '', line), cnc/gcode.py:8,93. re.sub scans from left
    to right and removes the leftmost match of one of the three alternatives;
    the scan is written as a one-pass automaton. *)
Fixpoint clean (m : cmode) (s : text) : text :=
  match s with
  | [] => []
  | c :: r =>
    match m with
    | Outside =>
      if is_blank c then clean Outside r
      else if is_open c && closes r then clean InParen r
      else if is_semi c then clean InLine r
      else c :: clean Outside r
    | InParen => if is_close c then clean Outside r else clean InParen r
    | InLine => if is_lf c then clean Outside r else clean InLine r
    end
  end.

(** The class [A-Z], cnc/gcode.py:6. *)
Definition is_letter (c : ascii) : bool := (65 <=? code c) && (code c <=? 90).
(** The class [-+], cnc/gcode.py:6. *)
Definition is_sign (c : ascii) : bool := (code c =? 43) || (code c =? 45).
Definition is_digit (c : ascii) : bool := (48 <=? code c) && (code c <=? 57).
Definition is_dot (c : ascii) : bool := code c =? 46.
(** The class [0-9.], cnc/gcode.py:6. *)
Definition is_numch (c : ascii) : bool := is_digit c || is_dot c.

(** One match of g_pattern: letter and literal, cnc/gcode.py:6. *)
Definition word := (ascii * text)%type.

(** State of the search for '([A-Z])([-+]?[0-9.]+)', cnc/gcode.py:6. *)
Inductive fstate :=
| Seek
| AfterLetter (l : ascii)
| AfterSign (l s : ascii)
| InNumber (l : ascii) (acc : text).

(** What the search does with a character when no match is in progress. *)
Definition seek1 (c : ascii) : fstate :=
  if is_letter c then AfterLetter c else Seek.

(** g_pattern.findall(line), cnc/gcode.py:6,98, as a one-pass automaton. When a
    match attempt fails, re.findall resumes one character after the start of
    the attempt; the characters skipped that way (a sign) cannot start a
    match, so it is enough to look at the current character again. [acc] holds
    the literal read so far, in order. *)
Fixpoint findall (st : fstate) (s : text) : list word :=
  match s with
  | [] => match st with InNumber l acc => [(l, acc)] | _ => [] end
  | c :: r =>
    match st with
    | Seek => findall (seek1 c) r
    | AfterLetter l =>
      if is_numch c then findall (InNumber l [c]) r
      else if is_sign c then findall (AfterSign l c) r
      else findall (seek1 c) r
    | AfterSign l sg =>
      if is_numch c then findall (InNumber l [sg; c]) r
      else findall (seek1 c) r
    | InNumber l acc =>
      if is_numch c then findall (InNumber l (acc ++ [c])) r
      else (l, acc) :: findall (seek1 c) r
    end
  end.

(** ''.join(["%s%s" % i for i in m]), cnc/gcode.py:101. *)
Definition join_words (m : list word) : text :=
  flat_map (fun w => fst w :: snd w) m.

(** [arg_name in self.params], cnc/gcode.py:27-33. *)
Fixpoint has (ps : list word) (k : ascii) : bool :=
  match ps with
  | [] => false
  | (l, _) :: r => Ascii.eqb l k || has r k
  end.

(** self.params[arg_name], cnc/gcode.py:44. *)
Fixpoint lookup (ps : list word) (k : ascii) : option text :=
  match ps with
  | [] => None
  | (l, v) :: r => if Ascii.eqb l k then Some v else lookup r k
  end.

(** dict(m): later entries overwrite the value of earlier ones with the same
    key, cnc/gcode.py:104. *)
Fixpoint dict_set (d : list word) (k : ascii) (v : text) : list word :=
  match d with
  | [] => [(k, v)]
  | (l, w) :: r => if Ascii.eqb l k then (l, v) :: r else (l, w) :: dict_set r k v
  end.
Definition dict_of (m : list word) : list word :=
  fold_left (fun d w => dict_set d (fst w) (snd w)) m [].

(** A GCode object is its params dict, cnc/gcode.py:17-25. *)
Definition gcode := list word.

(** GCode.parse_line, cnc/gcode.py:86-109. [Ok None] is Python's None. *)
Definition parse_line (line : text) : res (option gcode) :=
  let line := clean Outside (upper line) in
  match line with
  | [] => Ok None
  | c0 :: _ =>
    if Ascii.eqb c0 "%" then Ok None else
    let m := findall Seek line in
    if (length m =? 0)%nat then Raise (GCodeException "gcode not found") else
    if negb (length (join_words m) =? length line)%nat then
      Raise (GCodeException "extra characters in line") else
    let params := dict_of m in
    if negb (length params =? length m)%nat then
      Raise (GCodeException "duplicated gcode entries") else
    if has params "G" && has params "M" then
      Raise (GCodeException "g and m command found") else
    Ok (Some params)
  end.

(** GCode.has_coordinates, cnc/gcode.py:58-63. *)
Definition has_coordinates (g : gcode) : bool :=
  has g "X" || has g "Y" || has g "Z" || has g "E".

(** GCode.command, cnc/gcode.py:76-84. *)
Definition command (g : gcode) : option text :=
  match lookup g "G" with
  | Some v => Some ("G"%char :: v)
  | None =>
    match lookup g "M" with
    | Some v => Some ("M"%char :: v)
    | None => None
    end
  end.

(** Reading a literal as float() does, cnc/gcode.py:44, restricted to what
    g_pattern lets through: optional sign, then digits and dots. Result: sign,
    digits as one integer, number of digits after the dot. [None] where
    float() raises ValueError: no digit at all, or a second dot. *)
Definition digit_val (c : ascii) : Z := Z.of_nat (code c) - 48.

Fixpoint scan_digits (s : text) (seen_dot : bool) (ndig : nat) (n : Z) (dec : nat)
  : option (Z * nat) :=
  match s with
  | [] => if (ndig =? 0)%nat then None else Some (n, dec)
  | c :: r =>
    if is_digit c then
      scan_digits r seen_dot (S ndig) (10 * n + digit_val c)%Z
                  (if seen_dot then S dec else dec)
    else if is_dot c && negb seen_dot then scan_digits r true ndig n dec
    else None
  end.

Definition decimal_of (lit : text) : option (bool * Z * nat) :=
  match lit with
  | [] => None
  | c :: r =>
    let '(neg, body) :=
      if is_sign c then ((code c =? 45)%nat, r) else (false, lit) in
    match scan_digits body false 0 0 0 with
    | Some (n, dec) => Some (neg, n, dec)
    | None => None
    end
  end.

Definition tx (s : string) : text := list_ascii_of_string s.
