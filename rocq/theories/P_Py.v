(* Property C98: the objects of the Python module *)
From Coq Require Import String List.
From Verif Require Import Base S_Bits S_Cli S_Json S_Text S_Packet S_Group S_Merge S_AnyFile S_Record S_Timecode S_Py.
From Verif Require Import M_Reader M_Packet M_Group M_Timecode M_Json M_Text M_Merge M_Main M_Py.
From Verif Require Import L_Base L_Bits L_Packet L_Merge L_Json L_Text L_Group P_Packet P_Group P_Timecode P_Main2 P_AnyFile P_Record.
Open Scope N_scope.

(* ---- words ---- *)
Lemma words_step : forall s rest, wordy s -> words_of (s ++ 32 :: rest) = s :: words_of rest.
Proof. intros s rest H. exact (words_pad 0 s rest H). Qed.
Lemma words_one : forall s, wordy s -> words_of s = [s].
Proof. intros s H. exact (words_pad_last 0 s H). Qed.
Lemma wordy_app : forall s t, wordy s -> ~ In 32 t -> wordy (s ++ t).
Proof. intros s t (A & B) C. split; [destruct s; [contradiction|discriminate]|]. rewrite in_app_iff. tauto. Qed.
Lemma wordy_b : forall s, s <> [] -> existsb (N.eqb 32) s = false -> wordy s.
Proof. intros s A B. split; [exact A|]. intros I. assert (X : existsb (N.eqb 32) s = true) by (apply existsb_exists; exists 32; split; [exact I|reflexivity]). congruence. Qed.
Lemma wordy_pre : forall s t, existsb (N.eqb 32) s = false -> wordy t -> wordy (s ++ t).
Proof.
  intros s t A (B & C). split; [destruct s; [exact B|discriminate]|]. rewrite in_app_iff. intros [I|I]; [|exact (C I)].
  assert (X : existsb (N.eqb 32) s = true) by (apply existsb_exists; exists 32; split; [exact I|reflexivity]). congruence.
Qed.
Ltac wrd := first [apply dec_wordy | apply wordy_app; [apply dec_wordy|intros [|[]]; discriminate] | apply wordy_b; [discriminate|reflexivity] | apply wordy_pre; [reflexivity|wrd]].
Fixpoint join (ws : list (list N)) : list N :=
  match ws with [] => [] | [w] => w | w :: ws => w ++ 32 :: join ws end.
Lemma words_join : forall ws, Forall wordy ws -> words_of (join ws) = ws.
Proof.
  intros ws F. induction F as [|w ws H F IH]; [reflexivity|]. cbn [join]. destruct ws as [|v ws]; [apply words_one; exact H|].
  rewrite words_step by exact H. f_equal. exact IH.
Qed.
Lemma message_words : forall wanted got, message_says (text "Not enough bytes; wanted " ++ dec (N.of_nat wanted) ++ text ", got " ++ dec (N.of_nat got)) wanted got.
Proof.
  intros w g. exists (dec (N.of_nat w)), (dec (N.of_nat g)). split; [|split; apply dec_number].
  rewrite <- (words_join [text "Not"; text "enough"; text "bytes;"; text "wanted"; dec (N.of_nat w) ++ text ","; text "got"; dec (N.of_nat g)]) by (repeat (constructor; [wrd|]); constructor).
  f_equal. cbn [join]. rewrite <- !app_assoc. generalize (dec (N.of_nat w)) (dec (N.of_nat g)). intros a b. reflexivity.
Qed.

Definition hwords (h : header) (tail : list N) : list (list N) :=
  [text "PrimaryHeader"; text "{"; text "version:"; dec (version h) ++ text ","; text "type_flag:"; dec (type_flag h) ++ text ",";
   text "has_secondary_header:"; bool_text (has_secondary_header h) ++ text ","; text "apid:"; dec (apid h) ++ text ",";
   text "sequence_flags:"; dec (sequence_flags h) ++ text ","; text "sequence_id:"; dec (sequence_id h) ++ text ",";
   text "len_minus1:"; dec (len_minus1 h); text "}" ++ tail].
Lemma bool_wordy : forall b, wordy (bool_text b ++ text ",").
Proof. intros [|]; apply wordy_b; try discriminate; reflexivity. Qed.
Lemma hwords_wordy : forall h tail, ~ In 32 tail -> Forall wordy (hwords h tail).
Proof.
  intros h tail T. unfold hwords. repeat (constructor; [first [wrd|apply bool_wordy|apply wordy_app; [wrd|exact T]]|]). constructor.
Qed.
Lemma hwords_ok : forall h tail, header_words (hwords h tail) h tail.
Proof.
  intros h tail. unfold hwords. exists (dec (version h)), (dec (type_flag h)), (bool_text (has_secondary_header h)), (dec (apid h)), (dec (sequence_flags h)), (dec (sequence_id h)), (dec (len_minus1 h)).
  split; [reflexivity|]. repeat (split; [first [apply dec_number|destruct (has_secondary_header h); reflexivity]|]). apply dec_number.
Qed.
Lemma header_join : forall h, header_str h = join (hwords h []).
Proof.
  intros h. unfold header_str, hwords. cbn [join]. rewrite <- !app_assoc.
  generalize (dec (version h)) (dec (type_flag h)) (bool_text (has_secondary_header h)) (dec (apid h)) (dec (sequence_flags h)) (dec (sequence_id h)) (dec (len_minus1 h)).
  intros. reflexivity.
Qed.
Lemma packet_join : forall p, packet_str p = join (text "Packet{header:" :: hwords (p_header p) (text ",") ++ [text "data:[len=" ++ dec (N.of_nat (length (p_data p))) ++ text "]}"]).
Proof.
  intros p. unfold packet_str, header_str, hwords. cbn [join app]. rewrite <- !app_assoc.
  generalize (dec (N.of_nat (length (p_data p)))). destruct (p_header p) as [v t s a f i l]. cbn [version type_flag has_secondary_header apid sequence_flags sequence_id len_minus1].
  generalize (dec v) (dec t) (bool_text s) (dec a) (dec f) (dec i) (dec l). intros. reflexivity.
Qed.
Lemma data_wordy : forall n, wordy (text "data:[len=" ++ dec n ++ text "]}").
Proof. intros n. apply wordy_pre; [reflexivity|]. apply wordy_app; [apply dec_wordy|]. intros [|[|[]]]; discriminate. Qed.

(* str of a header: every field is readable *)
Theorem C98_header_str : forall h, header_words (words_of (header_str h)) h [].
Proof. intros h. rewrite header_join, words_join by (apply hwords_wordy; intros []). apply hwords_ok. Qed.
Print Assumptions C98_header_str.
(* str of a packet: its header and its length *)
Theorem C98_packet_str : forall p, exists hw w,
  words_of (packet_str p) = text "Packet{header:" :: hw ++ [text "data:[len=" ++ w ++ text "]}"] /\
  header_words hw (p_header p) (text ",") /\ is_number w (N.of_nat (length (p_data p))).
Proof.
  intros p. exists (hwords (p_header p) (text ",")), (dec (N.of_nat (length (p_data p)))). split; [|split; [apply hwords_ok|apply dec_number]].
  rewrite packet_join. apply words_join. constructor; [wrd|]. apply Forall_app. split; [apply hwords_wordy; intros [|[]]; discriminate|].
  constructor; [apply data_wordy|constructor].
Qed.
Print Assumptions C98_packet_str.
(* str of a group: its apid and its number of packets *)
Theorem C98_group_str : forall g, exists a n,
  words_of (group_str g) = [text "PacketGroup"; text "{apid=" ++ a; text "packets[len=" ++ n ++ text "]}"] /\
  is_number a (g_apid g) /\ is_number n (N.of_nat (length (g_packets g))).
Proof.
  intros g. exists (dec (g_apid g)), (dec (N.of_nat (length (g_packets g)))). split; [|split; apply dec_number].
  rewrite <- (words_join [text "PacketGroup"; text "{apid=" ++ dec (g_apid g); text "packets[len=" ++ dec (N.of_nat (length (g_packets g))) ++ text "]}"]).
  2:{ constructor; [wrd|]. constructor; [wrd|]. constructor; [|constructor].
    apply wordy_pre; [reflexivity|]. apply wordy_app; [apply dec_wordy|]. intros [|[|[]]]; discriminate. }
  apply (f_equal words_of). unfold group_str. cbn [join]. rewrite <- !app_assoc. generalize (dec (g_apid g)) (dec (N.of_nat (length (g_packets g)))). intros. reflexivity.
Qed.
Print Assumptions C98_group_str.
(* packets with the same str have the same header and length *)
Lemma header_words_det : forall ws h h' t t', header_words ws h t -> header_words ws h' t' -> h = h'.
Proof.
  intros ws [a b c d e f g] [a' b' c' d' e' f' g'] t t' (w1 & w2 & w3 & w4 & w5 & w6 & w7 & W & A1 & A2 & A3 & A4 & A5 & A6 & A7) (v1 & v2 & v3 & v4 & v5 & v6 & v7 & V & B1 & B2 & B3 & B4 & B5 & B6 & B7).
  cbn [version type_flag has_secondary_header apid sequence_flags sequence_id len_minus1] in *.
  rewrite W in V.
  assert (J : forall i, nth i [text "PrimaryHeader"; text "{"; text "version:"; w1 ++ text ","; text "type_flag:"; w2 ++ text ","; text "has_secondary_header:"; w3 ++ text ","; text "apid:"; w4 ++ text ","; text "sequence_flags:"; w5 ++ text ","; text "sequence_id:"; w6 ++ text ","; text "len_minus1:"; w7; text "}" ++ t] [] = nth i [text "PrimaryHeader"; text "{"; text "version:"; v1 ++ text ","; text "type_flag:"; v2 ++ text ","; text "has_secondary_header:"; v3 ++ text ","; text "apid:"; v4 ++ text ","; text "sequence_flags:"; v5 ++ text ","; text "sequence_id:"; v6 ++ text ","; text "len_minus1:"; v7; text "}" ++ t'] []) by (intros i; rewrite V; reflexivity).
  assert (E1 := J 3%nat). assert (E2 := J 5%nat). assert (E3 := J 7%nat). assert (E4 := J 9%nat). assert (E5 := J 11%nat). assert (E6 := J 13%nat). assert (E7 := J 15%nat).
  cbn [nth] in E1, E2, E3, E4, E5, E6, E7. apply app_inv_tail in E1, E2, E3, E4, E5, E6. clear V W J. subst v1 v2 v4 v5 v6 v7.
  destruct A1 as [_ <-], A2 as [_ <-], A4 as [_ <-], A5 as [_ <-], A6 as [_ <-], A7 as [_ <-], B1 as [_ <-], B2 as [_ <-], B4 as [_ <-], B5 as [_ <-], B6 as [_ <-], B7 as [_ <-].
  rewrite A3, B3 in E3. destruct c, c'; try discriminate E3; reflexivity.
Qed.
Theorem C98_str_tells : forall p q, packet_str p = packet_str q -> p_header p = p_header q /\ length (p_data p) = length (p_data q).
Proof.
  intros p q E. assert (A : words_of (packet_str p) = words_of (packet_str q)) by (rewrite E; reflexivity).
  rewrite !packet_join, !words_join in A.
  2,3: constructor; [wrd|]; apply Forall_app; split; [apply hwords_wordy; intros [|[]]; discriminate|constructor; [apply data_wordy|constructor]].
  apply (f_equal (@tl _)) in A. cbn [tl] in A. apply app_inj_tail in A. destruct A as [B C]. apply app_inv_head in C. apply app_inv_tail in C. split.
  - eapply header_words_det; [apply hwords_ok|]. rewrite B. apply hwords_ok.
  - assert (D := f_equal decimal C). destruct (dec_number (N.of_nat (length (p_data p)))) as [_ D1]. destruct (dec_number (N.of_nat (length (p_data q)))) as [_ D2]. rewrite D1, D2 in D. lia.
Qed.
Print Assumptions C98_str_tells.

(* ---- packets ---- *)
(* Packet(buf): a ValueError that tells how many bytes are wanted and how many there are, exactly if the buffer holds no complete
   packet; else a packet whose attributes are those of the first packet in the buffer. user_data is always there. *)
Theorem C98_packet : forall it ct xt buf, bytes_ok buf ->
  (incomplete buf -> exists msg, py_packet it ct xt buf = Raises (ValueError msg) /\
     message_says msg (if (length buf <? 6)%nat then 6 else wire_len buf) (length buf)) /\
  (~ incomplete buf -> exists p d, py_packet it ct xt buf = Returns p /\
     py_header p = spec_header buf /\ py_data p = firstn (wire_len buf) buf /\
     py_user_data p = Returns d /\ py_data p = firstn 6 buf ++ d /\ N.of_nat (length d) = len_minus1 (py_header p) + 1).
Proof.
  intros it ct xt buf B. assert (H := C02_packet_decode buf B). unfold py_packet, raise.
  destruct (packet_decode buf) as [[p|e]|]; [| |contradiction].
  - destruct H as (L1 & L2 & D & HD & _). split; [intros [I|I]; lia|]. intros _.
    assert (LD : length (p_data p) = wire_len buf) by (rewrite D, firstn_length; lia).
    assert (W : (wire_len buf = 7 + N.to_nat (field buf 32 16))%nat) by reflexivity.
    exists p, (skipn 6 (p_data p)). split; [reflexivity|]. unfold py_header, py_data. split; [exact HD|]. split; [exact D|]. split; [|split].
    + unfold py_user_data, slice_from, slice, HDR_LEN.
      replace (((6 <=? length (p_data p)) && (length (p_data p) <=? length (p_data p)))%nat) with true by (symmetry; apply andb_true_iff; split; apply Nat.leb_le; lia).
      rewrite firstn_all2 by (rewrite skipn_length; lia). reflexivity.
    + rewrite <- (firstn_skipn 6 (p_data p)) at 1. f_equal. rewrite D, firstn_firstn, Nat.min_l by lia. reflexivity.
    + rewrite skipn_length, LD, HD. cbn [len_minus1 spec_header]. lia.
  - destruct H as (I & ->). split; [|intros X; contradiction]. intros _. eexists. split; [reflexivity|]. apply message_words.
Qed.
Print Assumptions C98_packet.

(* The packet [w] at the beginning of a buffer: its header and its user data. *)
Theorem C98_wire : forall it ct xt w rest, wire_ok w -> bytes_ok rest ->
  exists p, py_packet it ct xt (wire_bytes w ++ rest) = Returns p /\ py_header p = w_header w /\ py_data p = wire_bytes w /\
    py_user_data p = Returns (w_body w).
Proof.
  intros it ct xt w rest W R. destruct (wire_bytes_props w W) as (B & L & WL & SH).
  assert (BB : bytes_ok (wire_bytes w ++ rest)) by (apply bytes_ok_app; split; assumption).
  assert (WL' : wire_len (wire_bytes w ++ rest) = length (wire_bytes w)) by (rewrite wire_len_app by lia; exact WL).
  destruct (C98_packet it ct xt _ BB) as (_ & H). destruct H as (p & d & A & HD & D & U & S & _).
  { intros [I|I]; rewrite app_length in I; lia. }
  assert (SP : spec_header (wire_bytes w ++ rest) = w_header w).
  { unfold wire_bytes. rewrite <- app_assoc. apply spec_header_encode. apply W. }
  assert (DD : py_data p = wire_bytes w).
  { rewrite D, WL', firstn_app, firstn_all, Nat.sub_diag, firstn_O, app_nil_r. reflexivity. }
  exists p. split; [exact A|]. split; [rewrite HD; exact SP|]. split; [exact DD|]. rewrite U. f_equal.
  rewrite DD in S. unfold wire_bytes in S. rewrite <- app_assoc in S.
  assert (E6 : length (encode_header (w_header w)) = 6%nat) by reflexivity.
  rewrite firstn_app, E6, Nat.sub_diag, firstn_O, app_nil_r, <- E6, firstn_all in S. apply app_inv_head in S. symmetry. exact S.
Qed.
Print Assumptions C98_wire.

(* A packet that is whole has user data, and Packet(packet.data) is the same packet (its place in the file apart). *)
Theorem C98_again : forall it ct xt p, whole p -> exists q d, py_packet it ct xt (py_data p) = Returns q /\ alike q p /\
  py_user_data p = Returns d /\ py_data p = firstn 6 (py_data p) ++ d.
Proof.
  intros it ct xt p H. destruct (whole_wire p H) as (w & OK & HD & D). destruct (C98_wire it ct xt w [] OK) as (q & A & B & C & U); [constructor|].
  rewrite app_nil_r, D in A. exists q, (w_body w). split; [exact A|].
  assert (AL : alike q p) by (split; [unfold py_header in B; congruence|unfold py_data in C; congruence]).
  split; [exact AL|]. destruct AL as [_ E].
  assert (U' : py_user_data p = Returns (w_body w)) by (rewrite <- U; unfold py_user_data; rewrite E; reflexivity).
  split; [exact U'|]. unfold py_data. rewrite <- D at 1 2. unfold wire_bytes.
  assert (E6 : length (encode_header (w_header w)) = 6%nat) by reflexivity.
  rewrite firstn_app, E6, Nat.sub_diag, firstn_O, app_nil_r, <- E6, firstn_all. reflexivity.
Qed.
Print Assumptions C98_again.

Lemma packets_whole : forall ws off, Forall wire_ok ws -> Forall whole (packets_at off ws).
Proof.
  induction ws as [|w ws IH]; intros off F; cbn [packets_at]; [constructor|]. inversion F; subst. constructor; [|apply IH; assumption].
  destruct (wire_bytes_props w) as (B & L & WL & SH); [assumption|]. unfold whole. cbn [p_data p_header]. repeat split; [exact B|lia|symmetry; exact SH|symmetry; exact WL].
Qed.
(* what decode_packets of the Python module gives, whatever is in the file *)
Theorem C98_from_file : forall fs path ps, disk_ok fs -> py_decode_packets fs path = Val (Some ps) -> Forall whole ps.
Proof.
  intros fs path ps DK H. destruct (aget path fs) as [bs|] eqn:G; [|unfold py_decode_packets in H; rewrite G in H; discriminate].
  destruct (C78_every_file bs (DK _ _ G)) as (ws & [F|F]).
  - destruct (grouping_total (packets_at 0 ws)) as (gs & GR).
    destruct (C60_python_files fs path bs ws gs G F GR) as (E & _). rewrite E in H. injection H as <-. apply packets_whole. apply F.
  - assert (X := proj2 (proj1 (C78_python fs path DK))). rewrite X in H; [discriminate|]. exists bs, ws. split; assumption.
Qed.
Print Assumptions C98_from_file.

(* ---- groups ---- *)
Lemma grouping_members : forall ps gs, grouping ps gs -> forall g, In g gs ->
  g_packets g <> [] /\ Forall (fun p => apid_of p = g_apid g) (g_packets g) /\ incl (g_packets g) ps.
Proof.
  induction 1 as [|p ps gs F G IH|p run rest gs F R N G IH]; intros g [].
  - subst g. cbn [g_packets g_apid]. split; [discriminate|]. split; [repeat constructor|]. intros x [<-|[]]. left. reflexivity.
  - destruct (IH g H) as (A & B & C). split; [exact A|]. split; [exact B|]. intros x I. right. apply C. exact I.
  - subst g. cbn [g_packets g_apid]. split; [discriminate|]. split.
    + constructor; [reflexivity|]. eapply Forall_impl; [|exact R]. intros q HQ. cbn beta in HQ. apply HQ.
    + intros x [<-|I]; [left; reflexivity|right; apply in_app_iff; left; exact I].
  - destruct (IH g H) as (A & B & C). split; [exact A|]. split; [exact B|]. intros x I. right. apply in_app_iff. right. apply C. exact I.
Qed.
(* The groups of decode_packet_groups, whatever is in the file: the attribute packets are packets of the file, at least one, all of the
   apid in the attribute apid; complete() and have_missing() return a bool. *)
Theorem C98_group : forall ovf fs path gs g, disk_ok fs -> py_decode_packet_groups fs path = Val (Some gs) -> In g gs ->
  exists ps a gps c m, py_decode_packets fs path = Val (Some ps) /\
    group_attribute ovf g "apid" = Some (AInt a) /\ group_attribute ovf g "packets" = Some (APackets gps) /\
    gps <> [] /\ Forall (fun p => In p ps /\ apid (py_header p) = a) gps /\
    group_attribute ovf g "complete" = Some (AMethod (Returns c)) /\ group_attribute ovf g "have_missing" = Some (AMethod (Returns m)) /\
    (c = true <->
      (exists p, gps = [p] /\ sequence_flags (py_header p) = 3) \/
      (exists f mid l, gps = f :: mid ++ [l] /\ sequence_flags (py_header f) = 1 /\ sequence_flags (py_header l) = 2 /\
         forall i p q, nth_error gps i = Some p -> nth_error gps (S i) = Some q ->
           sequence_id (py_header q) = (sequence_id (py_header p) + 1) mod 16384)) /\
    (m = true <-> exists i p q, nth_error gps i = Some p /\ nth_error gps (S i) = Some q /\
       sequence_id (py_header q) <> (sequence_id (py_header p) + 1) mod 16384).
Proof.
  intros ovf fs path gs g DK H IG. destruct (aget path fs) as [bs|] eqn:G; [|unfold py_decode_packet_groups in H; rewrite G in H; discriminate].
  destruct (C78_every_file bs (DK _ _ G)) as (ws & [F|F]).
  2:{ assert (X := proj2 (proj2 (C78_python fs path DK))). rewrite X in H; [discriminate|]. exists bs, ws. split; assumption. }
  destruct (grouping_total (packets_at 0 ws)) as (gs0 & GR).
  destruct (C60_python_files fs path bs ws gs0 G F GR) as (E1 & E2). rewrite E2 in H. injection H as <-.
  destruct (grouping_members _ _ GR g IG) as (NE & AP & IN).
  assert (SQ : Forall (fun p => sequence_id (p_header p) < 16384) (g_packets g)).
  { apply Forall_forall. intros p I. apply IN in I. assert (W := packets_whole ws 0 (proj1 F)). rewrite Forall_forall in W. destruct (W p I) as (_ & _ & -> & _).
    cbn [sequence_id spec_header]. exact (field_bound (p_data p) 18 14). }
  destruct (C11_complete ovf g SQ) as (c & C & CS). destruct (C11_have_missing ovf g NE SQ) as (m & M & MS).
  exists (packets_at 0 ws), (g_apid g), (g_packets g), c, m. split; [exact E1|]. split; [reflexivity|]. split; [reflexivity|]. split; [exact NE|]. split.
  { apply Forall_forall. intros p I. rewrite Forall_forall in AP. split; [apply IN; exact I|apply AP; exact I]. }
  split; [unfold group_attribute; cbn; rewrite C; reflexivity|]. split; [unfold group_attribute; cbn; rewrite M; reflexivity|]. split; [exact CS|exact MS].
Qed.
Print Assumptions C98_group.

(* ccsds.pyi declares complete and have_missing as bool attributes. They are methods: `if group.complete` holds for every group. *)
Definition py_fs : fsys := [(1, [8; 5; 65; 2; 0; 0; 7])].
Theorem C98_stub_refuted :
  (forall ovf g, exists a b, group_attribute ovf g "complete" = Some a /\ truth a = true /\ group_attribute ovf g "have_missing" = Some b /\ truth b = true) /\
  (forall ovf, exists g, py_decode_packet_groups py_fs 1 = Val (Some [g]) /\ group_attribute ovf g "complete" = Some (AMethod (Returns false)) /\
     group_attribute ovf g "have_missing" = Some (AMethod (Returns false))).
Proof.
  split.
  - intros ovf g. eexists. eexists. split; [reflexivity|]. split; [reflexivity|]. split; reflexivity.
  - intros ovf. eexists. split; [vm_compute; reflexivity|]. split; reflexivity.
Qed.
Print Assumptions C98_stub_refuted.
Example C98_ex_disk : disk_ok py_fs.
Proof. intros p bs. unfold py_fs. cbn [aget]. destruct (p =? 1); intros E; [|discriminate]. apply (f_equal (fun o => match o with Some l => l | None => [] end)) in E. subst bs. repeat constructor. Qed.

(* ---- time codes ---- *)
(* "str rep that is loadable by datetime.fromisoformat" is refuted: no time code's is, as long as fromisoformat accepts only texts
   that end in a digit or Z, whatever date and time look like. *)
Theorem C98_iso_refuted : forall (fromisoformat : list N -> option Z) civil e,
  (forall t z, fromisoformat t = Some z -> iso_end t) -> fromisoformat (timecode_str civil e) = None.
Proof.
  intros load civil e H. destruct (load (timecode_str civil e)) as [z|] eqn:E; [|reflexivity]. exfalso.
  apply H in E. destruct E as (t & c & E & C). unfold timecode_str in E.
  destruct (ep_scale e).
  - change (civil e ++ text " " ++ text "UTC") with (civil e ++ [32; 85; 84] ++ [67]) in E. rewrite app_assoc in E. apply app_inj_tail in E. destruct E as [_ <-]. lia.
  - change (civil e ++ text " " ++ text "TAI") with (civil e ++ [32; 84; 65] ++ [73]) in E. rewrite app_assoc in E. apply app_inj_tail in E. destruct E as [_ <-]. lia.
Qed.
Print Assumptions C98_iso_refuted.

(* decode_timecode, CDS: what is raised *)
Theorem C98_timecode_cds : forall it ct xt ovf nd ns buf, bytes_ok buf ->
  let r := py_decode_timecode it ct xt ovf (Cds nd ns) buf in
  ((length buf < nd + ns + 4)%nat -> exists msg, r = Raises (ValueError msg) /\ message_says msg (nd + ns + 4) (length buf)) /\
  ((nd + ns + 4 <= length buf)%nat ->
     ((4 < nd)%nat -> r = Raises PanicException) /\
     ((nd <= 4)%nat -> ns <> 0%nat -> ns <> 2%nat -> ns <> 4%nat -> r = Raises (ValueError (text "Invalid timecode config: " ++ ct))) /\
     ((nd <= 4)%nat -> ns = 4%nat -> ovf = true -> 4295 <= field buf (8 * nd + 32) 32 -> r = Raises PanicException) /\
     ((nd <= 4)%nat -> ns = 0%nat \/ ns = 2%nat \/ ns = 4%nat /\ (ovf = false \/ field buf (8 * nd + 32) 32 < 4295) -> exists e, r = Returns e)).
Proof.
  intros it ct xt ovf nd ns buf B. cbv zeta. unfold py_decode_timecode, raise. split.
  - intros L. rewrite C13_cds_short by exact L. eexists. split; [reflexivity|]. apply message_words.
  - intros L. assert (P := C16_cds_panic_exact ovf nd ns buf B). repeat split.
    + intros N4. rewrite (proj2 P); [reflexivity|]. split; [exact L|]. left. exact N4.
    + intros N4 A1 A2 A3. rewrite (proj2 (C13_cds_bad_submillis ovf nd ns buf (mkEpoch UTC 0) B A1 A2 A3) N4 L). reflexivity.
    + intros N4 -> -> X. rewrite (proj2 P); [reflexivity|]. split; [exact L|]. right. repeat split; assumption.
    + intros N4 [->|[->|[-> X]]].
      * rewrite C13_cds_value by (assumption || lia). eexists. reflexivity.
      * rewrite C13_cds_value by (assumption || lia). eexists. reflexivity.
      * assert (L8 : (nd + 8 <= length buf)%nat) by lia. rewrite C14_submillis4_exact by assumption. cbv zeta.
        destruct (N.ltb_spec (field buf (8 * nd + 32) 32) 4295); [eexists; reflexivity|]. destruct X as [->|X]; [eexists; reflexivity|lia].
Qed.
Print Assumptions C98_timecode_cds.
(* CUC *)
Theorem C98_timecode_cuc : forall it ct xt ovf nc nf mult buf, bytes_ok buf ->
  let r := py_decode_timecode it ct xt ovf (Cuc nc nf mult) buf in
  ((nc = 0 \/ 4 < nc \/ 3 < nf)%nat -> r = Raises (ValueError (text "Invalid timecode config: " ++ ct))) /\
  ((1 <= nc <= 4)%nat -> (nf <= 3)%nat ->
     ((length buf < nc + nf)%nat -> exists msg, r = Raises (ValueError msg) /\ message_says msg (nc + nf) (length buf)) /\
     ((nc + nf <= length buf)%nat -> exists e, r = Returns e /\ ep_scale e = TAI)).
Proof.
  intros it ct xt ovf nc nf mult buf B. cbv zeta. unfold py_decode_timecode, raise. destruct (C15_cuc_errors ovf nc nf mult buf) as (E1 & E2). split.
  - intros X. rewrite (E1 X). reflexivity.
  - intros A1 A2. split.
    + intros L. rewrite (E2 A1 A2 L). eexists. split; [reflexivity|]. apply message_words.
    + intros L. destruct mult as [m|].
      * cbn [timecode_decode]. unfold decode_cuc.
        replace (negb ((1 <=? nc) && (nc <=? 4)))%nat with false by (symmetry; apply negb_false_iff, andb_true_iff; split; apply Nat.leb_le; lia).
        replace (negb (nf <=? 3))%nat with false by (symmetry; apply negb_false_iff, Nat.leb_le; lia).
        replace (length buf <? nc + nf)%nat with false by (symmetry; apply Nat.ltb_ge; lia).
        assert (NP := C16_cuc_never_panics ovf nc nf (Some m) buf). cbn [timecode_decode] in NP. unfold decode_cuc in NP.
        replace (negb ((1 <=? nc) && (nc <=? 4)))%nat with false in NP by (symmetry; apply negb_false_iff, andb_true_iff; split; apply Nat.leb_le; lia).
        replace (negb (nf <=? 3))%nat with false in NP by (symmetry; apply negb_false_iff, Nat.leb_le; lia).
        replace (length buf <? nc + nf)%nat with false in NP by (symmetry; apply Nat.ltb_ge; lia).
        destruct (slice buf 0 nc) as [x|]; cbn [obind] in *; [|contradiction]. destruct (slice_from buf nc) as [y|]; cbn [obind] in *; [|contradiction].
        destruct (usub 8 nc) as [z|]; cbn [obind] in *; [|contradiction]. destruct (slice y 0 nf) as [u|]; cbn [obind] in *; [|contradiction].
        destruct (usub 8 nf) as [v|]; cbn [obind] in *; [|contradiction]. eexists. split; reflexivity.
      * rewrite C15_cuc_default_mult by assumption. eexists. split; reflexivity.
Qed.
Print Assumptions C98_timecode_cuc.

(* the packet of the module's test, with a byte too many and a byte too few *)
Definition py_buf : list N := [13; 89; 192; 1; 0; 8; 82; 192; 0; 0; 0; 167; 0; 219; 255].
Example C98_ex : forall it ct xt,
  (exists p, py_packet it ct xt (py_buf ++ [1]) = Returns p /\ py_user_data p = Returns [82; 192; 0; 0; 0; 167; 0; 219; 255] /\
     packet_str p = text "Packet{header: PrimaryHeader { version: 0, type_flag: 0, has_secondary_header: true, apid: 1369, sequence_flags: 3, sequence_id: 1, len_minus1: 8 }, data:[len=15]}") /\
  py_packet it ct xt (removelast py_buf) = Raises (ValueError (text "Not enough bytes; wanted 15, got 14")) /\
  bytes_ok py_buf /\ ~ incomplete py_buf /\ incomplete (removelast py_buf).
Proof.
  intros it ct xt. split; [eexists; split; [reflexivity|]; split; reflexivity|]. split; [vm_compute; reflexivity|]. split; [repeat constructor|]. split.
  - intros [H|H]; cbn in H; lia.
  - right. vm_compute. lia.
Qed.
