(** How a host program reads an answer: words separated by blanks; a field is a word that
    begins with its letter and a colon. *)
From Coq Require Import String Ascii Bool List.
From Verif Require Import GCode.
Import ListNotations.

Fixpoint words (t : text) : list text :=
  match t with
  | [] => [[]]
  | c :: r => if Ascii.eqb c " " then [] :: words r else match words r with w :: ws => (c :: w) :: ws | [] => [[c]] end
  end.
Fixpoint first_field (k : ascii) (ws : list text) : option text :=
  match ws with
  | [] => None
  | (c :: d :: v) :: r => if Ascii.eqb c k && Ascii.eqb d ":" then Some v else first_field k r
  | _ :: r => first_field k r
  end.
Definition field (k : ascii) (t : text) : option text := first_field k (words t).
(** The answer says that the command was carried out. *)
Definition says_ok (t : text) : bool := match words t with w :: _ => if list_eq_dec ascii_dec w (tx "OK") then true else false | [] => false end.
