(** Model of cnc/sensors/thermistor.py and of the number returned by
    cnc/sensors/ads111x.py. The temperature is a real-number expression
    (math.exp and math.log are exact); the refusal of a voltage is also given in
    binary64. The I2C transfers are not modelled: the conversion register holds any
    signed 16-bit number. *)
From Coq Require Import ZArith Bool Reals.
From Verif Require Import PyBase PyNum.
Local Open Scope R_scope.

(** struct.unpack(">h", ...), cnc/sensors/ads111x.py:68. *)
Definition adc_code (n : Z) : Prop := (-32768 <= n <= 32767)%Z.
(** v / 8000.0, cnc/sensors/ads111x.py:70. *)
Definition adc_volts (n : Z) : R := IZR n / 8000.

(** Vcc, R0, T0, BETA, R1, CELSIUS_TO_KELVIN, cnc/sensors/thermistor.py:39-48. *)
Definition vcc : R := 33 / 10.
Definition kelvin : R := 27315 / 100.
Definition beta : R := 4092.
(** Rinf, cnc/sensors/thermistor.py:50. *)
Definition rinf : R := 100000 * exp (- beta / (25 + kelvin)).

(** get_temperature, cnc/sensors/thermistor.py:62-68, after the measurement. *)
Definition get_temperature (v : R) : res R :=
  if Rle_dec vcc v then Raise IOErr
  else if Rle_dec v 0 then Raise IOErr
  else let r := v * 4700 / (vcc - v) in
       let l := ln (r / rinf) in
       if Req_EM_T l 0 then Raise ZeroDivisionError else Ok (beta / l - kelvin).

(** The two comparisons of cnc/sensors/thermistor.py:63-66 in binary64. *)
Definition refused (n : Z) : bool :=
  match f_div (f_ofZ n) (f_ofZ 8000) with
  | Ok v => f_le (f_ofdec false 33 1) v || f_le v (f_ofZ 0)
  | Raise _ => false
  end.
