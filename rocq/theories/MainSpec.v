(** Vocabulary of the statements about the main loop. *)
From Coq Require Import String Ascii ZArith Reals Bool List.
From Flocq Require Import Core BinarySingleNaN.
From Verif Require Import PyBase PyNum Config Coordinates Pulses GCode GMachine MachineHist MainLoop.
From Coq Require Import List.
Import ListNotations.

Section Spec.
Context {N : PyNum}.
Variable cfg : config.
Variable hw : hw_oracle N.

(** Lines executed in order, with their answers. *)
Inductive answered (f : text -> text) : list input -> session N -> list bool -> session N -> Prop :=
| an_nil s : answered f [] s [] s
| an_cons l r s s1 b bs s2 :
    do_line cfg hw (f l) s = (s1, Ok b) -> answered f r s1 bs s2 ->
    answered f (Line l :: r) s (b :: bs) s2.

(** The next item, if any, raises. *)
Definition raises (f : text -> text) (i : input) (s : session N) (e : exn) (s' : session N) : Prop :=
  match i with
  | Err e' => e' = e /\ s' = s
  | Line l => do_line cfg hw (f l) s = (s', Raise e)
  end.

End Spec.

(** The line that ends an interactive session. *)
Definition quits (i : input) : Prop := i = Line (tx "quit") \/ i = Line (tx "exit").

(** What the outputs were last told. *)
Definition last_spindle {N : PyNum} (es : list (event N)) : option N :=
  fold_left (fun s ev => match ev with ESpindle p => Some p | _ => s end) es None.

(** Hardware that raises nothing in the calls made at the end of the program. *)
Definition quiet_end {N : PyNum} (hw : hw_oracle N) : Prop :=
  forall l ev e, hw l ev = HRaise e -> (exists h, ev = EMeasure h) \/ (exists g, ev = EMove g) \/
    (exists h, ev = EHeaterWait h) \/ (exists t, ev = ESleep t) \/ (exists a b c, ev = ECalibrate a b c).

(** Everything off: spindle at 0 %, no heater on, fan off. *)
Definition all_off {acos : f64 -> f64} (es : list (event (F64 acos))) : Prop :=
  (exists p : f64, last_spindle es = Some p /\ is_finite p = true /\ B2R p = 0%R) /\
  (forall h, fold_left (fun s ev => match ev with
                                    | EHeaterOn h' _ => if heater_eqb h h' then true else s
                                    | EHeaterOff h' => if heater_eqb h h' then false else s
                                    | _ => s end) es false = false) /\
  fold_left (fun s ev => match ev with EFan b => b | _ => s end) es false = false.
