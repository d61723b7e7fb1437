(* Specification: times as Python has them *)
From Verif Require Import Base S_Timecode M_Timecode.
Open Scope Z_scope.

(* 1970-01-01 is 25567 days after 1900-01-01 *)
Definition ns1970 : Z := 25567 * ns_per_day.
(* the Unix time in nanoseconds of the UTC time that is [ns] nanoseconds after 1900-01-01 *)
Definition unix_ns (ns : Z) : Z := ns - ns1970.
(* the Unix time in nanoseconds of a time: of a UTC time it is [unix_ns], of a TAI time that of the UTC time [leap] seconds less,
   where [leap] gives the whole seconds between TAI and UTC at a TAI time *)
Definition unix_time (leap : Z -> Z) (e : epoch) : Z :=
  match ep_scale e with
  | UTC => unix_ns (ep_nanos e)
  | TAI => unix_ns (ep_nanos e - leap (ep_nanos e) * 1000000000)
  end.
(* at most so many seconds before or after 1970 *)
Definition within (seconds t : Z) : Prop := - seconds * 1000000000 <= t <= seconds * 1000000000.
(* 2242-03-16 and 2038-01-19, less two seconds *)
Definition until2242 : Z := 2 ^ 33 - 2.
Definition until2038 : Z := 2 ^ 31 - 2.
