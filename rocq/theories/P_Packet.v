(* Properties C01 - C07: space packet headers and packet streams *)
From Verif Require Import Base S_Bits M_Reader M_Packet S_Packet L_Packet.
Open Scope N_scope.

(* C01 *)
Theorem C01_header_fields : forall buf, bytes_ok buf -> (6 <= length buf)%nat ->
  header_decode buf = Val (Ok {|
    version := field buf 0 3;
    type_flag := field buf 3 1;
    has_secondary_header := field buf 4 1 =? 1;
    apid := field buf 5 11;
    sequence_flags := field buf 16 2;
    sequence_id := field buf 18 14;
    len_minus1 := field buf 32 16 |}).
Proof. exact header_decode_spec. Qed.
Print Assumptions C01_header_fields.

Theorem C01_header_short : forall buf, (length buf < 6)%nat ->
  header_decode buf = Val (Err (NotEnoughData (length buf) 6)).
Proof. exact header_decode_short. Qed.
Print Assumptions C01_header_short.

Theorem C01_header_encode : forall h rest, header_ok h -> bytes_ok rest ->
  header_decode (encode_header h ++ rest) = Val (Ok h).
Proof.
  intros h rest Hh Hr. rewrite header_decode_spec.
  - rewrite spec_header_encode by assumption. reflexivity.
  - apply L_Base.bytes_ok_app. split; [apply encode_bytes_ok; assumption|assumption].
  - rewrite app_length, encode_length. lia.
Qed.
Print Assumptions C01_header_encode.

Theorem C01_header_injective : forall a b, bytes_ok a -> bytes_ok b ->
  length a = 6%nat -> length b = 6%nat -> header_decode a = header_decode b -> a = b.
Proof.
  intros a b Ha Hb La Lb H. apply spec_header_inj; try assumption.
  rewrite !header_decode_spec in H by (assumption || lia). congruence.
Qed.
Print Assumptions C01_header_injective.

Example C01_ex : header_decode [0xd; 0x59; 0xd2; 0xab; 0x0; 0x8; 0xff] =
  Val (Ok {| version := 0; type_flag := 0; has_secondary_header := true; apid := 1369;
             sequence_flags := 3; sequence_id := 4779; len_minus1 := 8 |}).
Proof. reflexivity. Qed.

(* C02 *)
Theorem C02_packet_decode : forall buf, bytes_ok buf ->
  match packet_decode buf with
  | Panic => False
  | Val (Ok p) =>
      (6 <= length buf)%nat /\ (wire_len buf <= length buf)%nat /\
      p_data p = firstn (wire_len buf) buf /\ p_header p = spec_header buf /\ p_offset p = 0%nat
  | Val (Err e) =>
      incomplete buf /\
      e = NotEnoughData (length buf) (if (length buf <? 6)%nat then 6 else wire_len buf)
  end.
Proof.
  intros buf Hb. rewrite packet_decode_spec by assumption.
  destruct (length buf <? 6)%nat eqn:E1.
  - apply Nat.ltb_lt in E1. split; [left; assumption|reflexivity].
  - apply Nat.ltb_ge in E1. destruct (length buf <? wire_len buf)%nat eqn:E2.
    + apply Nat.ltb_lt in E2. split; [right; assumption|reflexivity].
    + apply Nat.ltb_ge in E2. repeat split; assumption.
Qed.
Print Assumptions C02_packet_decode.

Theorem C02_packet_decode_extend : forall buf extra p, bytes_ok buf -> bytes_ok extra ->
  packet_decode buf = Val (Ok p) -> packet_decode (buf ++ extra) = Val (Ok p).
Proof.
  intros buf extra p Hb He H.
  rewrite packet_decode_spec in H by assumption.
  rewrite packet_decode_spec by (apply L_Base.bytes_ok_app; split; assumption).
  destruct (length buf <? 6)%nat eqn:E1; [discriminate|]. apply Nat.ltb_ge in E1.
  rewrite wire_len_app by assumption.
  destruct (length buf <? wire_len buf)%nat eqn:E2; [discriminate|]. apply Nat.ltb_ge in E2.
  replace (length (buf ++ extra) <? 6)%nat with false by (symmetry; apply Nat.ltb_ge; rewrite app_length; lia).
  replace (length (buf ++ extra) <? wire_len buf)%nat with false
    by (symmetry; apply Nat.ltb_ge; rewrite app_length; lia).
  rewrite spec_header_app, L_Base.firstn_app_le by assumption. exact H.
Qed.
Print Assumptions C02_packet_decode_extend.

Example C02_ex : packet_decode [0xd; 0x59; 0xd2; 0xab; 0x0; 0x1; 7; 8; 9] =
  Val (Ok (mkPacket (mkHeader 0 0 true 1369 3 4779 1) [0xd; 0x59; 0xd2; 0xab; 0x0; 0x1; 7; 8] 0)).
Proof. reflexivity. Qed.

(* C03. [packets_at off ws]: the packets ws with their byte positions, see the two equations *)
Theorem C03_packets_at : forall off w ws,
  packets_at off [] = [] /\
  packets_at off (w :: ws) =
    {| p_header := w_header w; p_data := wire_bytes w; p_offset := off |}
    :: packets_at (off + length (wire_bytes w)) ws.
Proof. split; reflexivity. Qed.

Theorem C03_decode_stream : forall ws tail,
  Forall wire_ok ws ->
  Forall (fun w => N.of_nat (length (wire_bytes w)) <= 65536) ws ->
  bytes_ok tail -> incomplete tail ->
  ((6 <= length tail)%nat -> N.of_nat (wire_len tail) <= 65536) ->
  yields pdec_next (pdec_new (reader_of (concat (map wire_bytes ws) ++ tail)))
         (map Ok (packets_at 0 ws)).
Proof. exact decode_stream_plain. Qed.
Print Assumptions C03_decode_stream.

Definition ex_wire (seq : N) (body : list N) : wire_packet :=
  mkWire (mkHeader 0 0 true 1369 3 seq (N.of_nat (length body) - 1)) body.
Example C03_ex : exists ws tail, length ws = 2%nat /\ tail <> [] /\
  Forall wire_ok ws /\ Forall (fun w => N.of_nat (length (wire_bytes w)) <= 65536) ws /\
  bytes_ok tail /\ incomplete tail /\ ((6 <= length tail)%nat -> N.of_nat (wire_len tail) <= 65536).
Proof.
  exists [ex_wire 5 [1; 2; 3]; ex_wire 6 [0x1a]], [0xd; 0x59; 0xd2; 0xab; 0x0; 0x1; 7].
  repeat split; try discriminate;
    try (repeat constructor; cbn; (reflexivity || lia)).
Qed.

(* C04 *)
Theorem C04_chunking : forall r1 r2 items,
  same_transcript r1 r2 ->
  Forall (fun t => match t with TByte b => b < 256 | _ => True end) (transcript (evs r1)) ->
  (yields pdec_next (pdec_new r1) items <-> yields pdec_next (pdec_new r2) items) /\
  (panics_after pdec_next (pdec_new r1) items <-> panics_after pdec_next (pdec_new r2) items).
Proof. exact same_transcript_items. Qed.
Print Assumptions C04_chunking.

(* any way of cutting bs into non-empty reads, with interrupted reads in between, has the
   transcript of bs *)
Theorem C04_chunks_transcript : forall es bs,
  Forall (fun e => e = EvFail Interrupted \/ exists b c, e = EvData (b :: c)) es ->
  concat (map (fun e => match e with EvData c => c | EvFail _ => [] end) es) = bs ->
  transcript es = map TByte bs.
Proof.
  intros es bs H. revert bs. induction H as [|e es He H IH]; intros bs E.
  - cbn in E. subst. reflexivity.
  - cbn [map concat] in E. destruct He as [->|(b & c & ->)].
    + cbn [app] in E. cbn [transcript flat_map tokens_of_event app]. apply IH. exact E.
    + subst. rewrite map_app. rewrite <- (IH _ eq_refl). reflexivity.
Qed.
Print Assumptions C04_chunks_transcript.

Example C04_ex : same_transcript
  (mkReader [EvData [1; 2]; EvFail Interrupted; EvData [3]; EvFail (OtherIo 5); EvData [4]] AtEof)
  (mkReader [EvFail Interrupted; EvData [1]; EvData [2; 3]; EvFail (OtherIo 5); EvData [4]; EvFail Interrupted] AtEof).
Proof. split; reflexivity. Qed.

(* C05: the property is false of the code; the exact condition *)
Theorem C05_panic_exact : forall s,
  Forall (fun t => match t with TByte b => b < 256 | _ => True end) (transcript (evs (pd_reader s))) ->
  (pdec_next s = Panic <->
   exists hd rest, transcript (evs (pd_reader s)) = map TByte hd ++ rest /\ length hd = 6%nat
                   /\ 65529 < field hd 32 16).
Proof.
  intros s Hok. split.
  - intro H. assert (I := pdec_next_inv s Hok). rewrite H in I. exact I.
  - intros (hd & rest & E & L & F). assert (S := pdec_ptok s Hok).
    assert (P : ptok_next (ptok_of s) = Panic).
    { apply ptok_panic_iff. exists hd, rest. repeat split; try assumption.
      destruct (Nat.lt_ge_cases MAX_LEN (wire_len hd)) as [X|X]; [exact X|].
      apply max_len_spec in X. unfold wire_len in X. lia. }
    rewrite P in S. destruct (pdec_next s) as [[o s']|]; [discriminate|reflexivity].
Qed.
Print Assumptions C05_panic_exact.

(* a legal packet that Packet::decode accepts and decode_packets panics on *)
Theorem C05_max_length_refuted : forall w, wire_ok w -> 65529 < len_minus1 (w_header w) ->
  packet_decode (wire_bytes w) = Val (Ok (mkPacket (w_header w) (wire_bytes w) 0)) /\
  pdec_next (pdec_new (reader_of (wire_bytes w))) = Panic.
Proof.
  intros w Hw Hl. destruct (wire_bytes_props w Hw) as (Hb & L7 & LW & HH). split.
  - rewrite packet_decode_spec by assumption. rewrite LW.
    replace (length (wire_bytes w) <? 6)%nat with false by (symmetry; apply Nat.ltb_ge; lia).
    rewrite Nat.ltb_irrefl, HH, firstn_all. reflexivity.
  - assert (T : transcript (evs (reader_of (wire_bytes w))) = map TByte (wire_bytes w)) by apply (L_Reader.transcript_data (wire_bytes w) ltac:(discriminate)).
    apply C05_panic_exact.
    + cbn [pdec_new pd_reader]. rewrite T. apply tbytes_ok_map. exact Hb.
    + cbn [pdec_new pd_reader]. rewrite T. exists (encode_header (w_header w)), (map TByte (w_body w)).
      split; [unfold wire_bytes; apply map_app|]. split; [reflexivity|].
      assert (E := spec_header_encode (w_header w) [] (proj1 Hw)). rewrite app_nil_r in E.
      rewrite <- E in Hl. exact Hl.
Qed.
Print Assumptions C05_max_length_refuted.

Example C05_ex : exists w, wire_ok w /\ 65529 < len_minus1 (w_header w).
Proof.
  exists (mkWire (mkHeader 0 0 false 0 3 0 65535) (repeat 0 (N.to_nat 65536))).
  split; [|reflexivity]. split; [|split].
  - repeat split; reflexivity.
  - apply L_Base.bytes_ok_repeat0.
  - cbn [w_body w_header len_minus1]. rewrite repeat_length, N2Nat.id. reflexivity.
Qed.

(* C06 *)
Theorem C06_error_forwarded : forall s g k rest,
  transcript (evs (pd_reader s)) = map TByte g ++ TErr k :: rest ->
  bytes_ok g -> incomplete g -> ((6 <= length g)%nat -> N.of_nat (wire_len g) <= 65536) ->
  Forall (fun t => match t with TByte b => b < 256 | _ => True end) rest ->
  exists s', pdec_next s =
    Val (match k with UnexpectedEof => None | _ => Some (Err (Io k)) end, s')
    /\ transcript (evs (pd_reader s')) = rest /\ pd_offset s' = pd_offset s.
Proof.
  intros s g k rest HT Hb Hi HM Hr.
  assert (Hok : tbytes_ok (transcript (evs (pd_reader s)))).
  { rewrite HT. apply tbytes_ok_app. split; [apply tbytes_ok_map; assumption|]. constructor; auto. }
  assert (S := pdec_ptok s Hok). unfold ptok_of at 2 in S. rewrite HT in S.
  rewrite ptok_incomplete with (k := k) (ts' := rest) in S; try assumption; try reflexivity.
  - destruct (pdec_next s) as [[o s']|]; [|discriminate]. cbn in S. injection S as E1 E2 E3 E4.
    exists s'. subst. auto.
  - intro. apply max_len_spec. auto.
Qed.
Print Assumptions C06_error_forwarded.

Theorem C06_nothing_swallowed_or_invented : forall s,
  Forall (fun t => match t with TByte b => b < 256 | _ => True end) (transcript (evs (pd_reader s))) ->
  match pdec_next s with
  | Panic => exists hd ts, transcript (evs (pd_reader s)) = map TByte hd ++ ts /\ length hd = 6%nat
                           /\ 65529 < field hd 32 16
  | Val (Some (Ok p), s') =>
      transcript (evs (pd_reader s)) = map TByte (p_data p) ++ transcript (evs (pd_reader s'))
      /\ (length (p_data p) = wire_len (p_data p)) /\ p_header p = spec_header (p_data p)
      /\ p_offset p = pd_offset s /\ pd_offset s' = (pd_offset s + length (p_data p))%nat
  | Val (Some (Err e), s') =>
      pd_offset s' = pd_offset s /\
      exists k g, e = Io k /\ k <> UnexpectedEof /\ incomplete g /\
      (transcript (evs (pd_reader s)) = map TByte g ++ TErr k :: transcript (evs (pd_reader s'))
       \/ (transcript (evs (pd_reader s)) = map TByte g /\ transcript (evs (pd_reader s')) = []
           /\ exists c, fin (pd_reader s) = Failing c /\ k = OtherIo c))
  | Val (None, s') =>
      exists g, incomplete g /\
      (transcript (evs (pd_reader s)) = map TByte g ++ TErr UnexpectedEof :: transcript (evs (pd_reader s'))
       \/ transcript (evs (pd_reader s)) = map TByte g ++ TEof :: transcript (evs (pd_reader s'))
       \/ (transcript (evs (pd_reader s)) = map TByte g /\ transcript (evs (pd_reader s')) = []
           /\ fin (pd_reader s) = AtEof))
  end.
Proof. exact pdec_next_inv. Qed.
Print Assumptions C06_nothing_swallowed_or_invented.

Example C06_ex : fst (run pdec_next 9 (pdec_new (mkReader
    [EvData [0xd; 0x59; 0xd2]; EvFail (OtherIo 7); EvData [0xd; 0x59; 0xd2; 0xab; 0x0; 0x0; 9]] AtEof)))
  = [Err (Io (OtherIo 7)); Ok (mkPacket (mkHeader 0 0 true 1369 3 4779 0) [0xd; 0x59; 0xd2; 0xab; 0x0; 0x0; 9] 0)].
Proof. reflexivity. Qed.

(* C07: false for readers that fail forever ... *)
Theorem C07_filter_ok_hangs_refuted : forall code fuel,
  filter_ok_next pdec_next fuel (pdec_new (mkReader [] (Failing code))) = None.
Proof. intros. apply failing_hangs. Qed.
Print Assumptions C07_filter_ok_hangs_refuted.

(* ... true for all others: every call returns and the whole iteration ends *)
Theorem C07_terminates_on_finite_readers : forall s,
  Forall (fun t => match t with TByte b => b < 256 | _ => True end) (transcript (evs (pd_reader s))) ->
  fin (pd_reader s) = AtEof ->
  ((exists items, yields pdec_next s items) \/ (exists items, panics_after pdec_next s items)) /\
  exists fuel o, filter_ok_next pdec_next fuel s = Some o.
Proof.
  intros s Hok Hf. assert (E := pdec_ends s Hok Hf). split; [exact E|].
  destruct E as [[l H]|[l H]]; apply (filter_ok_returns _ _ pdec_next s l); auto.
Qed.
Print Assumptions C07_terminates_on_finite_readers.

Example C07_ex : fin (pd_reader (pdec_new (mkReader [EvFail (OtherIo 3); EvData [1; 2]] AtEof))) = AtEof
  /\ filter_ok_next pdec_next 2 (pdec_new (mkReader [EvFail (OtherIo 3); EvData [1; 2]] AtEof)) <> None.
Proof. split; [reflexivity|discriminate]. Qed.
