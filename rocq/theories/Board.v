(** Model of the choice of the hardware: the detection of the board in
    cnc/hal_raspberry/rpgpio_private.py and the fallback in cnc/hal.py. *)
From Coq Require Import String Ascii Bool Arith ZArith List.
From Verif Require Import PyBase GCode.
Import ListNotations.

(** RPI1_PERI_BASE and RPI2_3_PERI_BASE, cnc/hal_raspberry/rpgpio_private.py:12-13. *)
Definition rpi1_base : Z := 0x20000000.
Definition rpi23_base : Z := 0x3F000000.

(** The rest of [s] after [p], if [s] begins with it. *)
Fixpoint strip (p s : text) : option text :=
  match p, s with
  | [], _ => Some s
  | a :: p', b :: s' => if Ascii.eqb a b then strip p' s' else None
  | _, [] => None
  end.

(** "\s+" taking all it can: what it takes and what follows,
    cnc/hal_raspberry/rpgpio_private.py:18-19. *)
Fixpoint blanks_of (s : text) : text * text :=
  match s with
  | c :: r => if is_blank c then (c :: fst (blanks_of r), snd (blanks_of r)) else ([], s)
  | [] => ([], [])
  end.

(** ".+" up to the end of the line, cnc/hal_raspberry/rpgpio_private.py:18-19. *)
Fixpoint line_of (s : text) : text :=
  match s with
  | c :: r => if is_lf c then [] else c :: line_of r
  | [] => []
  end.

(** The last character that is not a line feed: where the matcher stops when it takes
    back characters from "\s+" at the end of the text. *)
Fixpoint last_visible (s : text) : option ascii :=
  match s with
  | [] => None
  | c :: r => match last_visible r with Some x => Some x | None => if is_lf c then None else Some c end
  end.

(** The group of "^<name>\s+:\s+(.+)$" matched at the start of [s],
    cnc/hal_raspberry/rpgpio_private.py:18-19. "\s" takes line feeds too. If nothing
    follows the blanks after the colon, the matcher takes characters back from the
    second "\s+" until "." matches. *)
Definition field_at (name s : text) : option text :=
  match strip name s with
  | None => None
  | Some r0 =>
    match blanks_of r0 with
    | ([], _) => None
    | (_ :: _, r1) =>
      match r1 with
      | [] => None
      | c :: r2 =>
        if negb (code c =? 58)%nat then None else
        match blanks_of r2 with
        | ([], _) => None
        | (_ :: more, []) => match last_visible more with Some x => Some [x] | None => None end
        | (_ :: _, r3) => Some (line_of r3)
        end
      end
    end
  end.

(** re.search with re.MULTILINE: the first match at the start of a line,
    cnc/hal_raspberry/rpgpio_private.py:18-19. *)
Fixpoint search (name : text) (at_start : bool) (s : text) : option text :=
  match (if at_start then field_at name s else None) with
  | Some v => Some v
  | None => match s with [] => None | c :: r => search name (is_lf c) r end
  end.

Definition t (s : string) : text := list_ascii_of_string s.
Definition revision_name : text := t "Revision".
Definition hardware_name : text := t "Hardware".

(** RPI_1_REVISIONS, cnc/hal_raspberry/rpgpio_private.py:20-23. *)
Definition rpi_1_revisions : list text := map t
  ["0002"; "0003"; "0004"; "0005"; "0006"; "0007"; "0008"; "0009"; "000d"; "000e"; "000f"; "0010";
   "0011"; "0012"; "0013"; "0014"; "0015"; "900021"; "900032"]%string.

(** Equality of texts, and [p in s] for texts. *)
Fixpoint same (a b : text) : bool :=
  match a, b with
  | [], [] => true
  | x :: a', y :: b' => Ascii.eqb x y && same a' b'
  | _, _ => false
  end.
Fixpoint contains (p s : text) : bool :=
  match strip p s with
  | Some _ => true
  | None => match s with [] => false | _ :: r => contains p r end
  end.

(** What importing the module does. *)
Inductive import :=
| Base (b : Z)          (* PERI_BASE is set *)
| ImportFails           (* ImportError *)
| AttributeFails.       (* AttributeError: r is None, r.group(1) raises *)

(** Detection, cnc/hal_raspberry/rpgpio_private.py:15-34. [None]: the file can not be
    read (IOError). *)
Definition detect (cpuinfo : option text) : import :=
  match cpuinfo with
  | None => ImportFails
  | Some d =>
    let r := search revision_name true d in
    match search hardware_name true d with
    | None => ImportFails
    | Some h =>
      match r with
      | None => AttributeFails
      | Some rev =>
        if existsb (same rev) rpi_1_revisions then Base rpi1_base
        else if contains (t "BCM2") h then Base rpi23_base
        else ImportFails
      end
    end
  end.

(** cnc/hal.py:99-104: the virtual device is taken if the import fails with
    ImportError; any other exception ends the program. *)
Inductive device := Raspberry (b : Z) | Virtual | NoDevice.
Definition choose (cpuinfo : option text) : device :=
  match detect cpuinfo with Base b => Raspberry b | ImportFails => Virtual | AttributeFails => NoDevice end.
