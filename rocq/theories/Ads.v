(** Model of cnc/sensors/ads111x.py: the transfers of [measure], one after the other, against
    the chip of AdsChip.v, and the loading of the module in cnc/sensors/thermistor.py and
    cnc/hal.py. The operating system is a function of the number of the transfer: whether
    the chip ends its conversion before it, and what becomes of the transfer.
    time.sleep is not modelled. *)
From Coq Require Import ZArith Bool List.
From Verif Require Import PyBase PyNum GCode Board AdsChip.
Import ListNotations.
Local Open Scope Z_scope.

(** What os.write and os.read do, cnc/sensors/ads111x.py:29-33: work, raise OSError, or
    (os.read) return fewer bytes than asked for. *)
Inductive transfer := Works | Fails | Short.
(** [w_time]: number of transfers made; [w_lock]: lock.locked(). *)
Record world : Type := { w_chip : chip; w_time : nat; w_lock : bool }.
(** A call still goes on, or it has ended. *)
Inductive run (A : Type) : Type := Waits | Ends (w : world) (r : res A).
Arguments Waits {A}.
Arguments Ends {A} w r.

Section Ads.
(** Result of a conversion that ends before transfer [t], by input and range. *)
Variable sense : nat -> Z -> Z -> Z.
(** Before transfer [t]: does the conversion end? And what becomes of the transfer? *)
Variable ready : nat -> bool.
Variable bus : nat -> transfer.

Definition chip_at (w : world) : chip :=
  if ready (w_time w) then chip_done (sense (w_time w)) (w_chip w) else w_chip w.
Definition next (w : world) (c : chip) : world := {| w_chip := c; w_time := S (w_time w); w_lock := w_lock w |}.
(** i2c.write, cnc/sensors/ads111x.py:29-30. *)
Definition i2c_write (d : list Z) (w : world) : world * res unit :=
  match bus (w_time w) with
  | Fails => (next w (chip_at w), Raise IOErr)
  | _ => (next w (chip_write d (chip_at w)), Ok tt)
  end.
(** i2c.read(2), cnc/sensors/ads111x.py:32-33. *)
Definition i2c_read (w : world) : world * res (list Z) :=
  match bus (w_time w) with
  | Fails => (next w (chip_at w), Raise IOErr)
  | Short => (next w (chip_at w), Ok [])
  | Works => (next w (chip_at w), Ok (chip_read (chip_at w)))
  end.
(** struct.unpack(">H", ...) and struct.unpack(">h", ...), cnc/sensors/ads111x.py:63, 68. *)
Definition unpack_H (d : list Z) : res Z := match d with [hi; lo] => Ok (hi * 256 + lo) | _ => Raise StructError end.
Definition unpack_h (d : list Z) : res Z :=
  match unpack_H d with Ok n => Ok (if n <? 32768 then n else n - 65536) | Raise e => Raise e end.
(** struct.pack(">BH", 0x01, ((0b100 | channel) << 12) | 0x8380), cnc/sensors/ads111x.py:54-59. *)
Definition config_word (channel : Z) : Z := Z.lor (Z.shiftl (Z.lor 4 channel) 12) 0x8380.
Definition config_bytes (channel : Z) : list Z := [1; config_word channel / 256; config_word channel mod 256].

(** The waiting loop, cnc/sensors/ads111x.py:61-65, at most [fuel] rounds of it. *)
Fixpoint poll (fuel : nat) (w : world) : run unit :=
  match fuel with
  | O => Waits
  | S fuel' =>
    match i2c_write [1] w with
    | (w, Raise e) => Ends w (Raise e)
    | (w, Ok _) =>
      match i2c_read w with
      | (w, Raise e) => Ends w (Raise e)
      | (w, Ok d) =>
        match unpack_H d with
        | Raise e => Ends w (Raise e)
        | Ok n => if Z.land n 0x8000 =? 0 then poll fuel' w else Ends w (Ok tt)
        end
      end
    end
  end.
Definition set_lock (w : world) (b : bool) : world := {| w_chip := w_chip w; w_time := w_time w; w_lock := b |}.
(** measure, cnc/sensors/ads111x.py:41-70. An exception leaves the lock taken. *)
Definition measure (fuel : nat) (channel : Z) (w : world) : run f64 :=
  if (channel <? 0) || (3 <? channel) then Ends w (Raise ValueError)
  else if w_lock w then Waits
  else
    match i2c_write (config_bytes channel) (set_lock w true) with
    | (w, Raise e) => Ends w (Raise e)
    | (w, Ok _) =>
      match poll fuel w with
      | Waits => Waits
      | Ends w (Raise e) => Ends w (Raise e)
      | Ends w (Ok _) =>
        match i2c_write [0] w with
        | (w, Raise e) => Ends w (Raise e)
        | (w, Ok _) =>
          match i2c_read w with
          | (w, Raise e) => Ends w (Raise e)
          | (w, Ok d) =>
            match unpack_h d with
            | Raise e => Ends w (Raise e)
            | Ok v => Ends (set_lock w false) (f_div (f_ofZ v) (f_ofZ 8000))
            end
          end
        end
      end
    end.

(** os.open and fcntl.ioctl, cnc/sensors/ads111x.py:16-20: a number, or OSError. *)
Inductive number := Number (n : Z) | Refused.
(** Loading a module: loaded, ImportError, another exception, or not yet ended. *)
Inductive load := Loaded | NoModule | OtherFails (e : exn) | Loading.
(** The body of cnc/sensors/ads111x.py: lines 13-35 and the test of lines 74-77. *)
Definition load_ads (open_dev set_address : number) (fuel : nat) (c : chip) : load :=
  match open_dev with
  | Refused => OtherFails IOErr
  | Number d =>
    if d <? 0 then NoModule
    else match set_address with
         | Refused => OtherFails IOErr
         | Number n =>
           if n <? 0 then NoModule
           else match measure fuel 0 {| w_chip := c; w_time := 0; w_lock := false |} with
                | Waits => Loading
                | Ends _ (Ok _) => Loaded
                | Ends _ (Raise IOErr) => NoModule
                | Ends _ (Raise e) => OtherFails e
                end
         end
  end.
(** cnc/sensors/thermistor.py:33-37: adc is the module, None, or an exception goes on.
    [found]: the interpreter finds a module of the name ads111x. In cnc/sensors/thermistor.py
    it is imported by this name alone, which Python 2 looks for beside the importing file
    and Python 3 in sys.path only. *)
Inductive adc := Adc | NoAdc | AdcRaises (e : exn) | AdcLoading.
Definition load_thermistor (found : bool) (open_dev set_address : number) (fuel : nat) (c : chip) : adc :=
  if found then
    match load_ads open_dev set_address fuel c with
    | Loaded => Adc
    | NoModule => NoAdc
    | OtherFails e => AdcRaises e
    | Loading => AdcLoading
    end
  else NoAdc.
(** cnc/sensors/thermistor.py:60-62: the voltage in get_temperature. *)
Definition voltage (a : adc) (fuel : nat) (channel : Z) (w : world) : run f64 :=
  match a with Adc => measure fuel channel w | _ => Ends w (Raise IOErr) end.
(** cnc/hal.py:99-104 with cnc/hal_raspberry/hal.py:3-6: the board, then the thermistor
    module; an exception that is no ImportError ends the program. *)
Definition start (cpuinfo : option text) (found : bool) (open_dev set_address : number) (fuel : nat) (c : chip) : device :=
  match choose cpuinfo with
  | Raspberry b => match load_thermistor found open_dev set_address fuel c with AdcRaises _ | AdcLoading => NoDevice | _ => Raspberry b end
  | d => d
  end.
End Ads.
