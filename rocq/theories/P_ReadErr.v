(* Properties C63, C64: I/O errors in the middle of a packet stream; the single packet read function *)
From Verif Require Import Base L_Base S_Bits M_Reader L_Reader M_Packet S_Packet L_Packet.
Open Scope N_scope.

(* C63. A read error in the middle of a packet, after which the reader goes on (the bytes g of the packet are
   lost): the error is reported once, and the packets behind it are found, but from there on every offset is
   too small by the number of bytes of g. *)
Theorem C63_offsets_after_error_refuted : forall ws1 g k ws2 tail r,
  Forall wire_ok ws1 -> Forall (fun w => N.of_nat (length (wire_bytes w)) <= 65536) ws1 ->
  Forall wire_ok ws2 -> Forall (fun w => N.of_nat (length (wire_bytes w)) <= 65536) ws2 ->
  bytes_ok g -> incomplete g -> ((6 <= length g)%nat -> N.of_nat (wire_len g) <= 65536) ->
  bytes_ok tail -> incomplete tail -> ((6 <= length tail)%nat -> N.of_nat (wire_len tail) <= 65536) ->
  k <> UnexpectedEof -> fin r = AtEof ->
  transcript (evs r) = map TByte (concat (map wire_bytes ws1) ++ g) ++ TErr k :: map TByte (concat (map wire_bytes ws2) ++ tail) ->
  yields pdec_next (pdec_new r)
    (map Ok (packets_at 0 ws1) ++ Err (Io k) :: map Ok (packets_at (length (concat (map wire_bytes ws1))) ws2)).
Proof.
  intros ws1 g k ws2 tail r O1 L1 O2 L2 BG IG MG BT IT MT NK HF HT. apply pdec_yields.
  - unfold pd_ok. cbn [pdec_new pd_reader]. rewrite HT. apply tbytes_ok_app. split.
    + apply tbytes_ok_map, bytes_ok_app. split; [apply concat_wire_ok|]; assumption.
    + constructor; [exact I|]. apply tbytes_ok_map, bytes_ok_app. split; [apply concat_wire_ok|]; assumption.
  - unfold ptok_of. cbn [pd_reader pd_offset pdec_new]. rewrite HT, HF, map_app, <- app_assoc.
    apply ptok_roundtrip; [assumption..|]. cbn [Nat.add].
    eapply yields_cons.
    + rewrite ptok_incomplete with (k := k) (ts' := map TByte (concat (map wire_bytes ws2) ++ tail)); try assumption; try reflexivity.
      2: intro; apply max_len_spec; auto. destruct k; [congruence| |]; reflexivity.
    + rewrite map_app. rewrite <- (app_nil_r (map Ok _)). apply ptok_roundtrip; [assumption..|]. apply ptok_tail_ends; assumption.
Qed.
Print Assumptions C63_offsets_after_error_refuted.
(* the true position of the first of ws2 is [length g] more *)
Example C63_ex : let w := mkWire (mkHeader 0 0 false 9 3 1 0) [42] in
  let r := mkReader [EvData (wire_bytes w); EvData [1; 2; 3]; EvFail (OtherIo 5); EvData (wire_bytes w)] AtEof in
  yields pdec_next (pdec_new r) [Ok (mkPacket (w_header w) (wire_bytes w) 0); Err (Io (OtherIo 5)); Ok (mkPacket (w_header w) (wire_bytes w) 7)].
Proof.
  intros w r. apply (C63_offsets_after_error_refuted [w] [1; 2; 3] (OtherIo 5) [w] []); repeat constructor; try (cbn; lia); try discriminate.
Qed.

(* C64 *)
Lemma read_of_next : forall r,
  match packet_read r with
  | Val (Ok p, r') => exists q s', pdec_next (mkPdec r 0) = Val (Some (Ok q), s') /\ p_header q = p_header p /\ p_data q = p_data p /\
        pd_reader s' = r' /\ p_offset p = 0%nat
  | Val (Err (Io UnexpectedEof), r') => exists s', pdec_next (mkPdec r 0) = Val (None, s') /\ pd_reader s' = r'
  | Val (Err e, r') => exists s', pdec_next (mkPdec r 0) = Val (Some (Err e), s') /\ pd_reader s' = r'
  | Panic => pdec_next (mkPdec r 0) = Panic
  end.
Proof.
  intro r. unfold pdec_next. cbn [pd_reader pd_offset]. assert (OFF : forall p r', packet_read r = Val (Ok p, r') -> p_offset p = 0%nat).
  { intros p r'. unfold packet_read. destruct (read_exact HDR_LEN r) as [[hd st] r1]. destruct st; [discriminate|].
    destruct (header_decode hd) as [[ph|e]|]; cbn [obind]; try discriminate. destruct (_ <=? _)%nat; [|discriminate].
    destruct (read_exact _ r1) as [[body st2] r2]. destruct st2; [discriminate|]. intro E. injection E as <- _. reflexivity. }
  destruct (packet_read r) as [[[p|e] r']|] eqn:E; cbn [obind]; [| |reflexivity].
  - eexists _, _. split; [reflexivity|]. repeat (split; [reflexivity|]). eapply OFF. reflexivity.
  - destruct e as [got wanted|[| |c]| |]; eexists; split; reflexivity.
Qed.

(* Packet::read on a reader whose next bytes are one packet: the packet, offset 0, and the reader stands right
   behind it *)
Theorem C64_read_packet : forall r w rest, wire_ok w -> N.of_nat (length (wire_bytes w)) <= 65536 ->
  transcript (evs r) = map TByte (wire_bytes w) ++ rest -> Forall (fun t => match t with TByte b => b < 256 | _ => True end) rest ->
  exists r', packet_read r = Val (Ok (mkPacket (w_header w) (wire_bytes w) 0), r') /\ transcript (evs r') = rest /\ fin r' = fin r.
Proof.
  intros r w rest HW HL HT HR. destruct (wire_bytes_props w HW) as (Hb & L7 & LW & HH).
  assert (PK : pd_ok (mkPdec r 0)).
  { unfold pd_ok. cbn [pd_reader]. rewrite HT. apply tbytes_ok_app. split; [apply tbytes_ok_map; exact Hb|exact HR]. }
  assert (E := pdec_ptok (mkPdec r 0) PK). unfold ptok_of at 2 in E. cbn [pd_reader pd_offset] in E. rewrite HT in E.
  rewrite ptok_packet in E; [|assumption|lia|lia|rewrite LW; apply max_len_spec; assumption].
  assert (R := read_of_next r). destruct (packet_read r) as [[[p|e] r']|].
  - destruct R as (q & s' & E' & HQ & DQ & RQ & OQ). rewrite E' in E. cbn [omap_st] in E.
    unfold ptok_of in E. rewrite RQ in E. inversion E; subst. exists (pd_reader s'). split; [|split; congruence].
    cbn [p_header p_data] in *. rewrite HH in HQ. destruct p; cbn in *; subst; reflexivity.
  - exfalso. destruct e as [got wanted|[| |c]| |]; destruct R as (s' & E' & _); rewrite E' in E; cbn [omap_st] in E; discriminate.
  - rewrite R in E. discriminate.
Qed.
Print Assumptions C64_read_packet.
(* fewer bytes than a packet: the reader's error, and at the end of the stream UnexpectedEof; also for an empty
   stream, which the packet iterator takes for its end *)
Theorem C64_read_incomplete : forall r g k rest, bytes_ok g -> incomplete g -> ((6 <= length g)%nat -> N.of_nat (wire_len g) <= 65536) ->
  Forall (fun t => match t with TByte b => b < 256 | _ => True end) rest ->
  transcript (evs r) = map TByte g ++ TErr k :: rest \/
  transcript (evs r) = map TByte g ++ TEof :: rest /\ k = UnexpectedEof \/
  transcript (evs r) = map TByte g /\ rest = [] /\ match fin r with AtEof => k = UnexpectedEof | Failing c => k = OtherIo c end ->
  exists r', packet_read r = Val (Err (Io k), r') /\ transcript (evs r') = rest /\ fin r' = fin r.
Proof.
  intros r g k rest BG IG MG HR HT.
  assert (X : exists ts, transcript (evs r) = map TByte g ++ ts /\ stop_of ts (fin r) = Some (k, rest) /\ tbytes_ok ts).
  { destruct HT as [HT|[[HT ->]|(HT & -> & HK)]].
    - exists (TErr k :: rest). repeat split; auto. constructor; auto.
    - exists (TEof :: rest). repeat split; auto. constructor; auto.
    - exists []. rewrite app_nil_r. split; [exact HT|]. split; [|constructor]. cbn. destruct (fin r); subst; reflexivity. }
  clear HT. destruct X as (ts & HT & ST & OT).
  assert (PK : pd_ok (mkPdec r 0)).
  { unfold pd_ok. cbn [pd_reader]. rewrite HT. apply tbytes_ok_app. split; [apply tbytes_ok_map; exact BG|exact OT]. }
  assert (E := pdec_ptok (mkPdec r 0) PK). unfold ptok_of at 2 in E. cbn [pd_reader pd_offset] in E. rewrite HT in E.
  rewrite ptok_incomplete with (k := k) (ts' := rest) in E; try assumption. 2: intro; apply max_len_spec; auto.
  assert (R := read_of_next r). destruct (packet_read r) as [[[p|e] r']|].
  - exfalso. destruct R as (q & s' & E' & _). rewrite E' in E. cbn [omap_st] in E. destruct k; discriminate.
  - exists r'. destruct e as [got wanted|k'| |]; try (exfalso; destruct R as (s' & E' & _); rewrite E' in E; cbn [omap_st] in E; destruct k; discriminate).
    destruct k'; destruct R as (s' & E' & <-); rewrite E' in E; cbn [omap_st] in E; unfold ptok_of in E; destruct k; inversion E; subst; auto.
  - rewrite R in E. discriminate.
Qed.
Print Assumptions C64_read_incomplete.
Example C64_ex : let w := mkWire (mkHeader 0 0 false 9 3 1 0) [42] in
  packet_read (mkReader [EvData (wire_bytes w ++ [7])] AtEof) = Val (Ok (mkPacket (w_header w) (wire_bytes w) 0), mkReader [EvData [7]] AtEof) /\
  packet_read (mkReader [EvData [1; 2]; EvFail Interrupted] AtEof) = Val (Err (Io UnexpectedEof), mkReader [] AtEof) /\
  packet_read (mkReader [EvFail (OtherIo 3); EvData [7]] AtEof) = Val (Err (Io (OtherIo 3)), mkReader [EvData [7]] AtEof).
Proof. repeat split; vm_compute; reflexivity. Qed.
