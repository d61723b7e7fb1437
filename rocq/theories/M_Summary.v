(* Model of ccsds-lib/src/spacepacket/summary.rs *)
From Verif Require Import Base M_Packet.
Open Scope N_scope.

(* summary.rs:10-14 *)
Record apid_summary : Type := mkApidSummary { as_count : N; as_bytes : N; as_missing : N }.
(* Default *)
Definition apid_summary0 : apid_summary := mkApidSummary 0 0 0.

(* summary.rs:34-41; usize counters are unbounded here *)
Record summary : Type := mkSummary {
  s_count : N;
  s_bytes : N;
  s_missing : N;
  s_apids : amap apid_summary;
  s_seen : amap header }.
Definition summary0 : summary := mkSummary 0 0 0 [] [].

(* summary.rs:44-59 Summary::add *)
Definition summary_add (ovf : bool) (s : summary) (p : packet) : outcome summary :=
  let n := N.of_nat (length (p_data p)) in
  let hdr := p_header p in
  let a := match aget (apid hdr) (s_apids s) with Some a => a | None => apid_summary0 end in
  let* missing :=
    match aget (apid hdr) (s_seen s) with
    | Some last => missing_packets ovf (sequence_id hdr) (sequence_id last)
    | None => Val 0
    end in
  Val {| s_count := s_count s + 1;
         s_bytes := s_bytes s + n;
         s_missing := s_missing s + missing;
         s_apids := aset (apid hdr)
                      (mkApidSummary (as_count a + 1) (as_bytes a + n) (as_missing a + missing))
                      (s_apids s);
         s_seen := aset (apid hdr) hdr (s_seen s) |}.

Fixpoint summary_add_all (ovf : bool) (s : summary) (ps : list packet) : outcome summary :=
  match ps with
  | [] => Val s
  | p :: ps => let* s' := summary_add ovf s p in summary_add_all ovf s' ps
  end.
