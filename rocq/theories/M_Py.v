(* Model of the objects of the Python module: the getters, constructors and str of ccsds-lib/src/spacepacket/mod.rs (feature "python"),
   ccsds-lib/src/error.rs:28-33, and decode_timecode and Timecode.__str__ of ccsds-py/src/lib.rs.
   pyo3 is external: a Rust error is raised as the exception it is converted to, a panic as PanicException, a #[getter] is an
   attribute, every other method is an attribute that is a method object, whose truth value is True. *)
From Coq Require Import String List.
From Verif Require Import Base M_Packet M_Group M_Timecode S_Json M_Json.
Open Scope N_scope.

Inductive exn : Type := ValueError (message : list N) | PanicException.
Inductive py (A : Type) : Type := Returns (a : A) | Raises (e : exn).
Arguments Returns {A} a.
Arguments Raises {A} e.

Section Texts.
(* the texts of I/O errors, of config errors (timecode.rs) and of integrity errors, which the model of errors leaves out *)
Variable io_text : iokind -> list N.
Variable config_text integrity_text : list N.

(* error.rs:11-22 Display; the texts of the variants *)
Definition error_text (e : error) : list N :=
  match e with
  | NotEnoughData got wanted => text "Not enough bytes; wanted " ++ dec (N.of_nat wanted) ++ text ", got " ++ dec (N.of_nat got)
  | Io k => io_text k
  | TimecodeConfig => text "Invalid timecode config: " ++ config_text
  | IntegrityAlgorithm => text "integrity algorithm error: " ++ integrity_text
  end.
(* error.rs:28-33 *)
Definition raise {A} (r : outcome (result A)) : py A :=
  match r with
  | Val (Ok a) => Returns a
  | Val (Err e) => Raises (ValueError (error_text e))
  | Panic => Raises PanicException
  end.
(* spacepacket/mod.rs:85-90 Packet(buf) *)
Definition py_packet (buf : list N) : py packet := raise (packet_decode buf).
(* ccsds-py/src/lib.rs:134-139 decode_timecode *)
Definition py_decode_timecode (ovf : bool) (format : format) (buf : list N) : py epoch := raise (timecode_decode ovf format buf).
End Texts.

(* spacepacket/mod.rs:79-104: the attributes header, data and user_data of a Packet *)
Definition py_header (p : packet) : header := p_header p.
Definition py_data (p : packet) : list N := p_data p.
Definition py_user_data (p : packet) : py (list N) :=
  match slice_from (p_data p) HDR_LEN with Val d => Returns d | Panic => Raises PanicException end.

(* derive(Debug) of PrimaryHeader, spacepacket/mod.rs:194-206, which is its str (246-249) *)
Definition bool_text (b : bool) : list N := if b then text "true" else text "false".
Definition header_str (h : header) : list N :=
  text "PrimaryHeader { version: " ++ dec (version h) ++ text ", type_flag: " ++ dec (type_flag h)
  ++ text ", has_secondary_header: " ++ bool_text (has_secondary_header h) ++ text ", apid: " ++ dec (apid h)
  ++ text ", sequence_flags: " ++ dec (sequence_flags h) ++ text ", sequence_id: " ++ dec (sequence_id h)
  ++ text ", len_minus1: " ++ dec (len_minus1 h) ++ text " }".
(* spacepacket/mod.rs:63-73, 106-109 *)
Definition packet_str (p : packet) : list N :=
  text "Packet{header: " ++ header_str (p_header p) ++ text ", data:[len=" ++ dec (N.of_nat (length (p_data p))) ++ text "]}".
(* spacepacket/mod.rs:315-322 *)
Definition group_str (g : pgroup) : list N :=
  text "PacketGroup {apid=" ++ dec (g_apid g) ++ text " packets[len=" ++ dec (N.of_nat (length (g_packets g))) ++ text "]}".

(* a call of a method that returns a bool *)
Definition call_bool (o : outcome bool) : py bool := match o with Val b => Returns b | Panic => Raises PanicException end.
(* spacepacket/mod.rs:301-351: the attributes of a PacketGroup *)
Inductive attribute : Type :=
| AInt (n : N)
| APackets (ps : list packet)
| AMethod (result : py bool).
Definition group_attribute (ovf : bool) (g : pgroup) (name : string) : option attribute :=
  if string_dec name "apid" then Some (AInt (g_apid g))
  else if string_dec name "packets" then Some (APackets (g_packets g))
  else if string_dec name "complete" then Some (AMethod (call_bool (complete ovf g)))
  else if string_dec name "have_missing" then Some (AMethod (call_bool (have_missing ovf g)))
  else None.
(* the truth value of an object in Python *)
Definition truth (a : attribute) : bool :=
  match a with AInt n => negb (n =? 0) | APackets ps => match ps with [] => false | _ => true end | AMethod _ => true end.

(* ccsds-py/src/lib.rs:90-93 Timecode.__str__: hifitime's Display is date and time ([civil], external), a blank and the time scale *)
Definition timecode_str (civil : epoch -> list N) (e : epoch) : list N :=
  civil e ++ text " " ++ match ep_scale e with UTC => text "UTC" | TAI => text "TAI" end.
