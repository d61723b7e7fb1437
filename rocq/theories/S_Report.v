(* Specification: what the reports of the framing and info commands say. Spec vocabulary: [count_integrity], [sumN],
   [stamps], [min_of], [max_of] (S_Cli.v); [of_apid], [gaps] (S_Group.v); [read_json], [member] (S_Json.v). *)
From Coq Require Import String List Sorted.
From Verif Require Import Base M_Packet M_Frame S_Json S_Cli S_Packet S_Group.
Open Scope N_scope.

(* a JSON object that has the counts of the given frames *)
Definition counts_frames (v : json) (fs : list frame) : Prop :=
  member "total_frames" v = Some (JNum (N.of_nat (length fs))) /\
  member "total_bytes" v = Some (JNum (sumN (map (fun f => N.of_nat (length (f_data f))) fs))) /\
  member "missing_frames" v = Some (JNum (sumN (map f_missing fs))) /\
  member "ok" v = Some (JNum (count_integrity [Some IOk] fs)) /\
  member "corrected" v = Some (JNum (count_integrity [Some ICorrected] fs)) /\
  member "uncorrectable" v = Some (JNum (count_integrity [Some IUncorrectable; Some INotCorrected] fs)) /\
  member "error" v = Some (JNum (count_integrity [Some IFailed] fs)) /\
  member "not_performed" v = Some (JNum (count_integrity [None] fs)).

(* the framing report on the frames [sel]: their counts, and in "vcids" one object for each vcid that occurs, by increasing
   vcid, with the vcid and the counts of its frames *)
Definition frame_report (sel : list frame) (v : json) : Prop :=
  counts_frames v sel /\
  exists vcids rows, member "vcids" v = Some (JArr rows) /\ StronglySorted N.lt vcids /\
    (forall x, In x vcids <-> exists f, In f sel /\ v_vcid (f_header f) = x) /\
    Forall2 (fun x row => member "vcid" row = Some (JNum x) /\
                          counts_frames row (filter (fun f => v_vcid (f_header f) =? x) sel)) vcids rows.

(* a JSON object that describes the given packets: [missing] packets missing; times as [epoch] and [span] write them *)
Definition describes_packets (time_of : packet -> option Z) (epoch span : Z -> json) (v : json) (ps : list packet) (missing : N) : Prop :=
  let ts := stamps time_of ps in
  member "total_packets" v = Some (JNum (N.of_nat (length ps))) /\
  member "missing_packets" v = Some (JNum missing) /\
  member "first_packet_time" v = Some (match min_of ts with Some t => epoch t | None => JNull end) /\
  member "last_packet_time" v = Some (match max_of ts with Some t => epoch t | None => JNull end) /\
  member "duration" v = Some (span (match min_of ts, max_of ts with Some f, Some l => l - f | _, _ => 0 end)%Z).

(* the info report on the packets [ps]: in "apids" a pair for each apid that occurs, by increasing apid *)
Definition info_report (time_of : packet -> option Z) (epoch span : Z -> json) (filename : list N) (ps : list packet) (v : json) : Prop :=
  member "filename" v = Some (JStr filename) /\
  exists summary apids rows,
    member "summary" v = Some summary /\ member "apids" v = Some (JArr rows) /\ StronglySorted N.lt apids /\
    (forall x, In x apids <-> exists p, In p ps /\ apid (p_header p) = x) /\
    Forall2 (fun x row => exists o, row = JArr [JNum x; o] /\
               describes_packets time_of epoch span o (of_apid x ps) (gaps (of_apid x ps))) apids rows /\
    describes_packets time_of epoch span summary ps
      (sumN (map (fun x => gaps (of_apid x ps)) apids)).

(* the labels of the text report of the framing command, each with the number it stands for *)
Definition frame_totals (fs : list frame) : list (string * N) :=
  [("Frames:", N.of_nat (length fs)); ("Bytes:", sumN (map (fun f => N.of_nat (length (f_data f))) fs)); ("Missing:", sumN (map f_missing fs));
   ("Corrected:", count_integrity [Some ICorrected] fs); ("Uncorrectable:", count_integrity [Some IUncorrectable; Some INotCorrected] fs);
   ("Ok:", count_integrity [Some IOk] fs); ("Error:", count_integrity [Some IFailed] fs); ("NotPerformed:", count_integrity [None] fs)]%string.
