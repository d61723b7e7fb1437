(* Model of the "serde" feature of ccsds-lib: what derive(Serialize, Deserialize) makes of Packet, PrimaryHeader, PacketGroup
   (ccsds-lib/src/spacepacket/mod.rs:52-61, 196-206, 294-299), Summary, ApidSummary (spacepacket/summary.rs:9-14, 33-41), Frame,
   VCDUHeader (framing/mod.rs:58-71, 105-111) and Integrity (framing/reed_solomon.rs:12-24), as JSON values (serde_json; the type
   jval of M_Config.v). Simplified: errors are None; all members of an object are collected before their values are read, which
   makes no difference as any error makes all of it fail. *)
From Coq Require Import String.
From Verif Require Import Base S_Json M_Json M_Packet M_Group M_Frame M_Summary M_Config.
From Coq Require Import List NArith ZArith Bool.
Import ListNotations.
Open Scope N_scope.

(* ---- writing ---- *)
Definition ser_num (n : N) : jval := VInt (Z.of_N n).
(* serde_bytes: serde_json writes bytes as an array of numbers *)
Definition ser_bytes (bs : list N) : jval := VArr (map ser_num bs).
Definition ser_header (h : header) : jval := VObj
  [(text "version", ser_num (version h)); (text "type_flag", ser_num (type_flag h));
   (text "has_secondary_header", VBool (has_secondary_header h)); (text "apid", ser_num (apid h));
   (text "sequence_flags", ser_num (sequence_flags h)); (text "sequence_id", ser_num (sequence_id h));
   (text "len_minus1", ser_num (len_minus1 h))].
Definition ser_packet (p : packet) : jval := VObj
  [(text "header", ser_header (p_header p)); (text "data", ser_bytes (p_data p)); (text "offset", ser_num (N.of_nat (p_offset p)))].
Definition ser_group (g : pgroup) : jval := VObj
  [(text "apid", ser_num (g_apid g)); (text "packets", VArr (map ser_packet (g_packets g)))].
Definition integrity_name (i : integrity) : list N :=
  match i with
  | IOk => text "Ok" | ICorrected => text "Corrected" | IUncorrectable => text "Uncorrectable"
  | INotCorrected => text "NotCorrected" | IFailed => text "Failed"
  end.
Definition ser_vcdu (h : vcdu_header) : jval := VObj
  [(text "version", ser_num (v_version h)); (text "scid", ser_num (v_scid h)); (text "vcid", ser_num (v_vcid h));
   (text "counter", ser_num (v_counter h))].
Definition ser_frame (f : frame) : jval := VObj
  [(text "header", ser_vcdu (f_header f)); (text "missing", ser_num (f_missing f));
   (text "integrity", match f_integrity f with None => VNull | Some i => VStr (integrity_name i) end);
   (text "data", ser_bytes (f_data f))].
Definition ser_apid_summary (s : apid_summary) : jval := VObj
  [(text "count", ser_num (as_count s)); (text "bytes", ser_num (as_bytes s)); (text "missing", ser_num (as_missing s))].
(* a HashMap with keys that are numbers: an object, in the order of iteration *)
Definition ser_map {V} (ser : V -> jval) (m : amap V) : jval := VObj (map (fun kv => (dec (fst kv), ser (snd kv))) m).
(* [apids] and [seen] are the entries of the two maps in the order in which they are iterated *)
Definition ser_summary (s : summary) (apids : amap apid_summary) (seen : amap header) : jval := VObj
  [(text "count", ser_num (s_count s)); (text "bytes", ser_num (s_bytes s)); (text "missing", ser_num (s_missing s));
   (text "apids", ser_map ser_apid_summary apids); (text "seen_headers", ser_map ser_header seen)].

(* ---- reading ---- *)
(* the value of each field of a struct, from an object or from an array; unknown members are skipped, a field that is there
   twice is an error *)
Fixpoint find_all (k : list N) (l : list (list N * jval)) : list jval :=
  match l with [] => [] | (k', v) :: r => if key_eqb k' k then v :: find_all k r else find_all k r end.
Fixpoint fields_of (names : list string) (l : list (list N * jval)) : option (list (option jval)) :=
  match names with
  | [] => Some []
  | k :: names =>
      match fields_of names l with
      | None => None
      | Some vs => match find_all (text k) l with [] => Some (None :: vs) | [v] => Some (Some v :: vs) | _ => None end
      end
  end.
Definition struct (names : list string) (v : jval) : option (list (option jval)) :=
  match v with
  | VObj l => fields_of names l
  | VArr vs => if (List.length vs =? List.length names)%nat then Some (map Some vs) else None
  | _ => None
  end.
(* a field that must be there; an Option *)
Definition must {A} (de : jval -> option A) (o : option jval) : option A := match o with Some v => de v | None => None end.
Definition may {A} (de : jval -> option A) (o : option jval) : option (option A) :=
  match o with Some v => de_option de v | None => Some None end.
Definition de_u8 : jval -> option N := de_uint 256.
Definition de_u16 : jval -> option N := de_uint 65536.
Definition de_u32 : jval -> option N := de_uint 4294967296.
(* serde_bytes on serde_json: an array of bytes, or a string, which stands for its bytes *)
Definition de_buf (v : jval) : option (list N) := match v with VStr s => Some s | _ => de_bytes v end.
Definition de_header (v : jval) : option header :=
  match struct ["version"; "type_flag"; "has_secondary_header"; "apid"; "sequence_flags"; "sequence_id"; "len_minus1"]%string v with
  | Some [a; b; c; d; e; f; g] =>
      match must de_u8 a, must de_u8 b, must de_bool c, must de_u16 d, must de_u8 e, must de_u16 f, must de_u16 g with
      | Some a, Some b, Some c, Some d, Some e, Some f, Some g => Some (mkHeader a b c d e f g)
      | _, _, _, _, _, _, _ => None
      end
  | _ => None
  end.
Definition de_packet (v : jval) : option packet :=
  match struct ["header"; "data"; "offset"]%string v with
  | Some [a; b; c] =>
      match must de_header a, must de_buf b, must de_usize c with
      | Some a, Some b, Some c => Some (mkPacket a b (N.to_nat c))
      | _, _, _ => None
      end
  | _ => None
  end.
Definition de_vec {A} (de : jval -> option A) (v : jval) : option (list A) := match v with VArr l => de_all de l | _ => None end.
Definition de_group (v : jval) : option pgroup :=
  match struct ["apid"; "packets"]%string v with
  | Some [a; b] => match must de_u16 a, must (de_vec de_packet) b with Some a, Some b => Some (mkGroup a b) | _, _ => None end
  | _ => None
  end.
(* an enum without values: its name, or an object with the name and null *)
Definition integrity_of (s : list N) : option integrity :=
  if key_eqb s (text "Ok") then Some IOk else if key_eqb s (text "Corrected") then Some ICorrected
  else if key_eqb s (text "Uncorrectable") then Some IUncorrectable else if key_eqb s (text "NotCorrected") then Some INotCorrected
  else if key_eqb s (text "Failed") then Some IFailed else None.
Definition de_integrity (v : jval) : option integrity :=
  match v with
  | VStr s => integrity_of s
  | VObj [(k, VNull)] => integrity_of k
  | _ => None
  end.
Definition de_vcdu (v : jval) : option vcdu_header :=
  match struct ["version"; "scid"; "vcid"; "counter"]%string v with
  | Some [a; b; c; d] =>
      match must de_u8 a, must de_u16 b, must de_u16 c, must de_u32 d with
      | Some a, Some b, Some c, Some d => Some (mkVcdu a b c d)
      | _, _, _, _ => None
      end
  | _ => None
  end.
Definition de_frame (v : jval) : option frame :=
  match struct ["header"; "missing"; "integrity"; "data"]%string v with
  | Some [a; b; c; d] =>
      match must de_vcdu a, must de_u32 b, may de_integrity c, must de_buf d with
      | Some a, Some b, Some c, Some d => Some (mkFrame a b c d)
      | _, _, _, _ => None
      end
  | _ => None
  end.
Definition de_apid_summary (v : jval) : option apid_summary :=
  match struct ["count"; "bytes"; "missing"]%string v with
  | Some [a; b; c] =>
      match must de_usize a, must de_usize b, must de_usize c with
      | Some a, Some b, Some c => Some (mkApidSummary a b c)
      | _, _, _ => None
      end
  | _ => None
  end.
(* a key of an object as a number: decimal digits without leading zeros (simplified: serde_json looks at the key before escapes
   are resolved, so that it refuses a digit written as an escape) *)
Definition de_key (s : list N) : option N :=
  match s with
  | [] => None
  | [48] => Some 0
  | 48 :: _ => None
  | _ => if forallb digit s then
           let n := fold_left (fun a c => 10 * a + (c - 48)) s 0 in if n <? 65536 then Some n else None
         else None
  end.
(* HashMap: an object; of equal keys the last one counts *)
Fixpoint de_entries {V} (de : jval -> option V) (l : list (list N * jval)) (m : amap V) : option (amap V) :=
  match l with
  | [] => Some m
  | (k, v) :: r => match de_key k, de v with Some k, Some v => de_entries de r (aset k v m) | _, _ => None end
  end.
Definition de_map {V} (de : jval -> option V) (v : jval) : option (amap V) := match v with VObj l => de_entries de l [] | _ => None end.
Definition de_summary (v : jval) : option summary :=
  match struct ["count"; "bytes"; "missing"; "apids"; "seen_headers"]%string v with
  | Some [a; b; c; d; e] =>
      match must de_usize a, must de_usize b, must de_usize c, must (de_map de_apid_summary) d, must (de_map de_header) e with
      | Some a, Some b, Some c, Some d, Some e => Some (mkSummary a b c d e)
      | _, _, _, _, _ => None
      end
  | _ => None
  end.
