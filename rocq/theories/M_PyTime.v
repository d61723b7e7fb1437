(* Model of Timecode.unix_seconds and Timecode.datetime of the Python module: ccsds-py/src/lib.rs:78-117.
   External code that is included, as far as these two functions use it: hifitime's Epoch::to_unix_seconds and
   Duration::to_seconds, CPython's datetime.fromtimestamp with the timezone utc. How many whole seconds hifitime takes from a TAI
   time to make it UTC is a parameter. Doubles are Flocq's binary64 numbers, rounded to nearest, ties to even. *)
From Flocq Require Import Core.
From Flocq Require Import BinarySingleNaN.
From Verif Require Import Base M_Packet M_Timecode.
Open Scope Z_scope.

Definition p53 : Prec_gt_0 53 := eq_refl.
Definition e1024 : Prec_lt_emax 53 1024 := eq_refl.
Definition double : Type := binary_float 53 1024.
Definition of_int (n : Z) : double := binary_normalize 53 1024 p53 e1024 mode_NE n 0 false.
Definition dadd (x y : double) : double := Bplus (prec_gt_0_ := p53) (prec_lt_emax_ := e1024) mode_NE x y.
Definition dsub (x y : double) : double := Bminus (prec_gt_0_ := p53) (prec_lt_emax_ := e1024) mode_NE x y.
Definition dmul (x y : double) : double := Bmult (prec_gt_0_ := p53) (prec_lt_emax_ := e1024) mode_NE x y.
(* the double written 1e-9 *)
Definition d1e9 : double := binary_normalize 53 1024 p53 e1024 mode_NE 4835703278458517 (-82) false.

(* hifitime: NANOSECONDS_PER_CENTURY, SECONDS_PER_CENTURY *)
Definition NANOS_PER_CENTURY : Z := 3155760000000000000.
Definition SECONDS_PER_CENTURY : Z := 3155760000.
(* hifitime Duration::to_seconds; a duration is whole centuries (i16) and the nanoseconds (u64) above them *)
Definition to_seconds (nanos : Z) : double :=
  let centuries := nanos / NANOS_PER_CENTURY in
  let nanoseconds := nanos mod NANOS_PER_CENTURY in
  let seconds := nanoseconds / 1000000000 in
  let subseconds := nanoseconds mod 1000000000 in
  if centuries =? 0
  then dadd (of_int seconds) (dmul (of_int subseconds) d1e9)
  else dadd (dadd (dmul (of_int centuries) (of_int SECONDS_PER_CENTURY)) (of_int seconds)) (dmul (of_int subseconds) d1e9).

(* hifitime UNIX_REF_EPOCH: 1970-01-01 UTC, in nanoseconds since 1900-01-01 *)
Definition UNIX_REF : Z := 2208988800000000000.
(* hifitime Epoch::to_unix_duration: the UTC time since 1970. [leap]: whole seconds between TAI and UTC at a TAI time. *)
Definition unix_nanos (leap : Z -> Z) (e : epoch) : Z :=
  match ep_scale e with
  | UTC => ep_nanos e - UNIX_REF
  | TAI => ep_nanos e - leap (ep_nanos e) * 1000000000 - UNIX_REF
  end.
(* ccsds-py/src/lib.rs:99-101 unix_seconds; to_unix_seconds multiplies to_seconds by 1.0, which is left out *)
Definition unix_seconds (leap : Z -> Z) (e : epoch) : double := to_seconds (unix_nanos leap e).

(* CPython datetime.fromtimestamp(d, timezone.utc): _PyTime_DoubleToDenominator with round-half-even, then the range of
   years 1 to 9999. A datetime is its number of microseconds since 1970-01-01 UTC; None = an exception. *)
Definition MIN_SECOND : Z := -62135596800.
Definition MAX_SECOND : Z := 253402300799.
Definition fromtimestamp (d : double) : option Z :=
  if negb (is_finite d) then None else
  let intpart := Btrunc d in
  let floatpart := dmul (dsub d (of_int intpart)) (of_int 1000000) in
  let us := Btrunc (Bnearbyint (prec_lt_emax_ := e1024) mode_NE floatpart) in
  let '(sec, us) :=
    if 1000000 <=? us then (intpart + 1, us - 1000000)
    else if us <? 0 then (intpart - 1, us + 1000000)
    else (intpart, us) in
  if (MIN_SECOND <=? sec) && (sec <=? MAX_SECOND) then Some (sec * 1000000 + us) else None.

(* ccsds-py/src/lib.rs:110-117 datetime *)
Definition datetime (leap : Z -> Z) (e : epoch) : option Z := fromtimestamp (unix_seconds leap e).
