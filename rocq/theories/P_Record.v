(* C96: packets written to a file as they are decoded, and the tools on that file *)
From Coq Require Import Permutation Sorted.
From Verif Require Import Base S_Bits M_Reader M_Packet M_Group S_Packet S_Group M_Frame M_FramePackets S_FramePackets M_Timecode
  L_Base L_Bits L_Packet L_Group M_Merge S_Merge L_Merge M_Cli S_Cli M_Main S_Main S_AnyFile S_Compose S_Record
  P_Packet P_Group P_FramePackets P_Merge P_Main P_Main2 P_AnyFile L_Compose.
Open Scope nat_scope.

(* ---- every packet that a decoder delivers is whole ---- *)
Theorem C96_from_frames : forall izone trailer fs ps, frames_ok izone trailer fs ->
  yields (fpiter_next izone trailer) (packet_decoder fs) ps -> Forall whole ps.
Proof.
  intros izone trailer fs ps OK Y. apply Forall_forall. intros p I.
  destruct (C38_packet_origin izone trailer fs ps p OK Y I) as (v & bef & f0 & rest & aft & earlier & suffix & E & _ & _ & _ & D & _ & P).
  assert (B : forall f, In f (f0 :: rest) -> bytes_ok (payload_of izone trailer f)).
  { intros f J. assert (K : In f fs).
    { assert (K : In f (filter (is_chan v) fs)) by (rewrite E; apply in_or_app; right; apply in_or_app; left; exact J). apply filter_In in K. apply K. }
    unfold frames_ok in OK. rewrite Forall_forall in OK. destruct (OK f K) as [BF _]. unfold payload_of, zone_of.
    apply bytes_ok_skipn, bytes_ok_skipn, bytes_ok_firstn. exact BF. }
  assert (BA : bytes_ok (skipn (pointer_of izone trailer f0) (payload_of izone trailer f0) ++ concat (map (payload_of izone trailer) rest))).
  { apply Forall_app. split; [apply bytes_ok_skipn, B; left; reflexivity|].
    assert (X : forall l, (forall f, In f l -> bytes_ok (payload_of izone trailer f)) -> bytes_ok (concat (map (payload_of izone trailer) l))).
    { induction l as [|f l IH]; intros H; cbn [map concat]; [constructor|]. apply Forall_app. split; [apply H; left; reflexivity|apply IH; intros; apply H; right; assumption]. }
    apply X. intros f J. apply B. right. exact J. }
  rewrite D in BA. apply Forall_app in BA. destruct BA as [_ BA]. apply Forall_app in BA. destruct BA as [BA _].
  destruct P as (P1 & P2 & P3 & _). split; [exact BA|]. auto.
Qed.
Print Assumptions C96_from_frames.
Theorem C96_from_stream : forall s p s', Forall (fun t => match t with TByte b => (b < 256)%N | _ => True end) (transcript (evs (pd_reader s))) ->
  pdec_next s = Val (Some (Ok p), s') -> whole p /\ moderate p.
Proof.
  intros s p s' OK E. pose proof (C06_nothing_swallowed_or_invented s OK) as H. rewrite E in H. destruct H as (T & L & HD & _).
  assert (B : bytes_ok (p_data p)).
  { rewrite T in OK. apply Forall_app in OK. destruct OK as [OK _]. clear -OK. unfold bytes_ok. induction (p_data p) as [|b l IH]; cbn [map] in OK; inversion OK; subst; constructor; auto. }
  assert (L7 : 7 <= length (p_data p)) by (rewrite L; apply wire_len_ge).
  split; [split; [exact B|]; split; [lia|]; split; assumption|].
  unfold moderate. destruct (N.leb_spec (N.of_nat (length (p_data p))) 65536) as [M|M]; [exact M|exfalso].
  assert (X : pdec_next s = Panic); [|congruence]. apply (C05_panic_exact s OK). exists (firstn 6 (p_data p)), (map TByte (skipn 6 (p_data p)) ++ transcript (evs (pd_reader s'))).
  split; [rewrite app_assoc, <- map_app, firstn_skipn; exact T|]. split; [rewrite firstn_length; lia|].
  rewrite L in M. assert (W : wire_len (firstn 6 (p_data p)) = wire_len (p_data p)).
  { rewrite <- (firstn_skipn 6 (p_data p)) at 2. rewrite wire_len_app; [reflexivity|]. rewrite firstn_length; lia. }
  rewrite <- W in M. unfold wire_len in M. lia.
Qed.
Print Assumptions C96_from_stream.

(* ---- the file ---- *)
Lemma whole_wire : forall p, whole p -> exists w, wire_ok w /\ w_header w = p_header p /\ wire_bytes w = p_data p.
Proof.
  intros p (B & L & E & W). destruct (wire_of_bytes _ B L W) as (w & OK & D). exists w. split; [exact OK|]. split; [|exact D].
  rewrite E, <- D. unfold wire_bytes. symmetry. apply spec_header_encode. apply OK.
Qed.
Lemma recording_wires : forall ps, Forall whole ps -> Forall moderate ps ->
  exists ws, Forall wire_ok ws /\ Forall (fun w => N.of_nat (length (wire_bytes w)) <= 65536)%N ws /\
    recording ps = concat (map wire_bytes ws) /\ (forall off, packets_at off ws = placed off ps) /\ Forall2 is_wire ps ws.
Proof.
  intros ps H M. induction H as [|p ps P H IH].
  - exists []. repeat split; constructor.
  - inversion M as [|? ? M1 M2]; subst. destruct (IH M2) as (ws & W & L & C & A & F). destruct (whole_wire p P) as (w & OK & E & D).
    exists (w :: ws). split; [constructor; assumption|]. split; [constructor; [rewrite D; exact M1|exact L]|]. split; [|split].
    + unfold recording in *. cbn [map concat]. rewrite D, C. reflexivity.
    + intro off. cbn [packets_at placed]. rewrite E, D, A. reflexivity.
    + constructor; [split; congruence|exact F].
Qed.
Lemma recording_holds : forall ps, Forall whole ps -> Forall moderate ps ->
  exists ws, file_holds (recording ps) ws /\ packets_at 0 ws = placed 0 ps /\ Forall2 is_wire ps ws.
Proof.
  intros ps H M. destruct (recording_wires ps H M) as (ws & W & L & C & A & F). exists ws. split; [|split; [apply A|exact F]].
  split; [exact W|]. split; [exact L|]. exists []. rewrite app_nil_r. split; [exact C|]. split; [constructor|]. split; [apply incomplete_nil|cbn; lia].
Qed.
Lemma reader_same : forall bs r, bs <> [] -> transcript (evs r) = map TByte bs -> fin r = AtEof -> same_transcript (reader_of bs) r.
Proof.
  intros bs r N T F. split; [|symmetry; exact F]. rewrite T. unfold reader_of, transcript. destruct bs as [|b bs]; [congruence|]. cbn [evs flat_map tokens_of_event]. apply app_nil_r.
Qed.
Lemma nothing_read : forall r, transcript (evs r) = [] -> fin r = AtEof -> yields pdec_next (pdec_new r) [].
Proof.
  intros r T F. assert (OK : Forall (fun t => match t with TByte b => (b < 256)%N | _ => True end) (transcript (evs (pd_reader (pdec_new r))))) by (cbn [pdec_new pd_reader]; rewrite T; constructor).
  pose proof (C06_nothing_swallowed_or_invented _ OK) as H. cbn [pdec_new pd_reader] in H. rewrite T in H.
  destruct (pdec_next (pdec_new r)) as [[[[p|e]|] s']|] eqn:E.
  - destruct H as (H & L & _). pose proof (wire_len_ge (p_data p)). destruct (p_data p); [cbn in L; lia|discriminate H].
  - destruct H as (_ & k & g & _ & _ & _ & [H|(_ & _ & c & H & _)]); [destruct g; discriminate H|unfold pdec_new in E; congruence].
  - econstructor. exact E.
  - destruct H as (hd & ts & H & L & _). destruct hd; [discriminate L|discriminate H].
Qed.
Lemma bytes_tokens : forall bs, bytes_ok bs -> Forall (fun t => match t with TByte b => (b < 256)%N | _ => True end) (map TByte bs).
Proof. intros bs H. induction H; cbn [map]; constructor; assumption. Qed.
Lemma recording_bytes : forall ps, Forall whole ps -> bytes_ok (recording ps).
Proof. intros ps H. unfold recording. induction H as [|p ps (B & _) _ IH]; cbn [map concat]; [constructor|]. apply Forall_app. split; assumption. Qed.

(* Read by decode_packets, in whatever pieces: the same packets, at their positions in the file. *)
Theorem C96_read_back : forall ps r, Forall whole ps -> Forall moderate ps -> transcript (evs r) = map TByte (recording ps) -> fin r = AtEof ->
  yields pdec_next (pdec_new r) (map Ok (placed 0 ps)).
Proof.
  intros ps r H M T F. destruct (recording_holds ps H M) as (ws & FH & A & _). rewrite <- A.
  destruct ps as [|p ps]; [rewrite A; apply nothing_read; assumption|].
  assert (NE : recording (p :: ps) <> []).
  { inversion H as [|? ? (_ & L & _) _]; subst. unfold recording. cbn [map concat]. destruct (p_data p); [cbn in L; lia|discriminate]. }
  apply (C04_chunking (reader_of (recording (p :: ps))) r); [apply reader_same; assumption| |].
  - destruct (reader_same _ _ NE T F) as [E _]. rewrite E, T. apply bytes_tokens, recording_bytes, H.
  - apply (proj1 (C78_reading _ _) FH).
Qed.
Print Assumptions C96_read_back.

Lemma Forall_firstn : forall A (P : A -> Prop) k l, Forall P l -> Forall P (firstn k l).
Proof. intros A P k l H. revert k. induction H; intros [|k]; cbn [firstn]; constructor; auto. Qed.
(* The writer stopped after n bytes: the packets that are complete in them. *)
Lemma cut_at : forall ps n, n <= length (recording ps) -> exists k, k <= length ps /\
  length (recording (firstn k ps)) <= n /\ (n < length (recording (firstn (S k) ps)) \/ n = length (recording ps) /\ k = length ps).
Proof.
  induction ps as [|p ps IH]; intros n L.
  - exists 0. cbn in *. split; [lia|]. split; [lia|]. right. lia.
  - unfold recording in *. cbn [map concat] in L. rewrite app_length in L. destruct (Nat.lt_ge_cases n (length (p_data p))) as [C|C].
    + exists 0. cbn [firstn map concat length]. split; [lia|]. split; [lia|]. left. rewrite app_nil_r. exact C.
    + destruct (IH (n - length (p_data p))) as (k & K & A & B); [lia|]. exists (S k).
      change (firstn (S (S k)) (p :: ps)) with (p :: firstn (S k) ps). change (firstn (S k) (p :: ps)) with (p :: firstn k ps).
      cbn [map concat length]. rewrite !app_length. split; [lia|]. split; [lia|]. destruct B as [B|[B1 B2]]; [left; lia|right; lia].
Qed.
Theorem C96_cut : forall ps n, Forall whole ps -> Forall moderate ps ->
  exists k, yields pdec_next (pdec_new (reader_of (firstn n (recording ps)))) (map Ok (placed 0 (firstn k ps))) /\
    length (recording (firstn k ps)) <= n /\ (k < length ps -> n < length (recording (firstn (S k) ps))).
Proof.
  intros ps n H M. destruct (Nat.le_gt_cases (length (recording ps)) n) as [G|G].
  { exists (length ps). rewrite !firstn_all2 by lia. split; [|split; [exact G|lia]].
    destruct (recording_holds ps H M) as (ws & FH & A & _). rewrite <- A. apply (proj1 (C78_reading _ _) FH). }
  destruct (cut_at ps n) as (k & K & A & [B|[B _]]); [lia| |lia].
  exists k. split; [|split; [exact A|intros _; exact B]].
  assert (KL : k < length ps).
  { destruct (Nat.eq_dec k (length ps)) as [->|N]; [|lia]. rewrite firstn_all2 in A by lia. lia. }
  destruct (recording_holds (firstn k ps)) as (ws & FH & PA & _); [apply Forall_firstn; exact H|apply Forall_firstn; exact M|].
  rewrite <- PA. apply (proj1 (C78_reading _ _)).
  destruct (nth_error ps k) as [p|] eqn:E; [|apply nth_error_None in E; lia].
  assert (SP : ps = firstn k ps ++ p :: skipn (S k) ps).
  { clear -E. revert ps E. induction k as [|k IH]; intros [|q ps] E; cbn in *; try discriminate; [injection E as ->; reflexivity|f_equal; apply IH; exact E]. }
  assert (SK : firstn (S k) ps = firstn k ps ++ [p]).
  { rewrite SP at 1. rewrite firstn_app, firstn_length, Nat.min_l by lia. replace (S k - k) with 1 by lia. rewrite firstn_firstn, Nat.min_r by lia. reflexivity. }
  rewrite SK in B. unfold recording in *. rewrite map_app, concat_app, app_length in B. cbn [map concat] in B. rewrite app_nil_r in B.
  set (pre := concat (map p_data (firstn k ps))) in *.
  assert (FE : firstn n (concat (map p_data ps)) = pre ++ firstn (n - length pre) (p_data p)).
  { rewrite SP, map_app, concat_app. cbn [map concat]. fold pre. rewrite firstn_app, firstn_all2 by lia. f_equal.
    rewrite firstn_app. replace (n - length pre - length (p_data p)) with 0 by lia. cbn [firstn]. apply app_nil_r. }
  assert (WP : whole p /\ moderate p).
  { rewrite Forall_forall in H, M. pose proof (nth_error_In _ _ E). auto. }
  destruct WP as [(BP & L6 & _ & LW) MP]. unfold moderate in MP.
  rewrite FE. destruct FH as (W1 & W2 & tail & TE & _ & INC & _).
  assert (TN : tail = []).
  { assert (LT : length (concat (map wire_bytes ws)) = length pre).
    { assert (X : forall ws off, length (concat (map wire_bytes ws)) = length (concat (map p_data (packets_at off ws)))).
      { clear. induction ws as [|w ws IH]; intro off; cbn [packets_at map concat p_data]; [reflexivity|]. rewrite !app_length, <- IH. reflexivity. }
      rewrite (X ws 0), PA. unfold pre. clear. generalize 0. induction (firstn k ps) as [|q l IH]; intro off; cbn [placed map concat p_data]; [reflexivity|].
      rewrite !app_length, IH. reflexivity. }
    apply (f_equal (@length _)) in TE. rewrite app_length in TE. destruct tail; [reflexivity|cbn in TE; lia]. }
  subst tail. rewrite app_nil_r in TE.
  split; [exact W1|]. split; [exact W2|]. exists (firstn (n - length pre) (p_data p)). split; [rewrite TE; reflexivity|].
  split; [apply bytes_ok_firstn; exact BP|].
  set (j := n - length pre) in *. assert (LJ : length (firstn j (p_data p)) = j) by (rewrite firstn_length; lia).
  assert (WJ : 6 <= j -> wire_len (firstn j (p_data p)) = wire_len (p_data p)).
  { intro J. rewrite <- (firstn_skipn j (p_data p)) at 2. rewrite wire_len_app; [reflexivity|lia]. }
  split.
  - unfold incomplete. rewrite LJ. destruct (Nat.lt_ge_cases j 6) as [Q|Q]; [left; exact Q|right; rewrite WJ by exact Q; lia].
  - rewrite LJ. intro Q. rewrite WJ by exact Q. lia.
Qed.
Print Assumptions C96_cut.

(* A packet of more than 65536 bytes can be decoded from frames (and by Packet::decode) and can be written; then the file cannot
   be read: after the packets in front of it comes a panic. *)
Theorem C96_long_packet_refuted : forall ps p more, Forall whole ps -> Forall moderate ps -> whole p -> ~ moderate p -> bytes_ok more ->
  panics_after pdec_next (pdec_new (reader_of (recording ps ++ p_data p ++ more))) (map Ok (placed 0 ps)).
Proof.
  intros ps p more H M (B & L & _ & W) NM BM. destruct (recording_wires ps H M) as (ws & W1 & L1 & C & A & _). rewrite <- A.
  apply (proj2 (C78_reading _ _)). split; [exact W1|]. split; [exact L1|]. exists (p_data p ++ more). split; [rewrite C; reflexivity|].
  split; [apply Forall_app; split; assumption|]. split; [rewrite app_length; lia|]. rewrite wire_len_app by exact L. rewrite <- W. unfold moderate in NM. lia.
Qed.
Print Assumptions C96_long_packet_refuted.

(* ---- the tools on the file ---- *)
Lemma placed_alike : forall ps off, Forall2 same ps (placed off ps).
Proof. induction ps as [|p ps IH]; intro off; cbn [placed]; constructor; [split; reflexivity|apply IH]. Qed.
(* the groups are those of the packets that were written *)
Theorem C96_groups : forall fs path ps gs, aget path fs = Some (recording ps) -> Forall whole ps -> Forall moderate ps ->
  yields giter_next (giter_new ps) gs ->
  py_decode_packets fs path = Val (Some (placed 0 ps)) /\
  exists gs', py_decode_packet_groups fs path = Val (Some gs') /\ Forall2 alike_groups gs gs'.
Proof.
  intros fs path ps gs E H M Y. apply C10_groups_exact in Y. destruct (recording_holds ps H M) as (ws & FH & A & _).
  destruct (grouping_same ps gs Y (placed 0 ps) (placed_alike ps 0)) as (gs' & G & AL). rewrite <- A in G.
  destruct (C60_python_files fs path _ ws gs' E FH G) as [P1 P2]. rewrite <- A. split; [exact P1|]. exists gs'. split; [exact P2|]. exact AL.
Qed.
Print Assumptions C96_groups.
(* filtering by apid is filtering before writing *)
Theorem C96_filter : forall creatable fs a ps include exclude,
  may_write fs (fa_clobber a) (fa_output a) -> creatable (fa_output a) = true -> fa_input a <> fa_output a ->
  aget (fa_input a) fs = Some (recording ps) -> Forall whole ps -> Forall moderate ps ->
  stands_for (fa_include a) include -> stands_for (fa_exclude a) exclude ->
  (exists v, In v (include ++ exclude) /\ v < 65536)%N -> fa_before a = None -> fa_after a = None ->
  exists kps fs', kept (fun p => accepted include exclude (apid (p_header p))) ps kps /\
    filter_command creatable fs a = Val (Success, fs') /\ only_written fs (fa_output a) (recording kps) fs'.
Proof.
  intros creatable fs a ps include exclude W C D E H M SI SE X FB FA. destruct (recording_holds ps H M) as (ws & FH & _ & F).
  destruct (C56_filter_command_apids creatable fs a _ ws include exclude W C D E FH SI SE X FB FA) as (kw & fs' & K & R & O).
  assert (F' : Forall2 (fun w p => is_wire p w) ws ps) by (clear -F; induction F; constructor; assumption).
  assert (RL : forall w p, is_wire p w -> (accepted include exclude (apid (w_header w)) <-> accepted include exclude (apid (p_header p)))) by (intros w p [-> _]; reflexivity).
  destruct (kept_rel _ _ (fun w p => is_wire p w) _ (fun p => accepted include exclude (apid (p_header p))) RL ws kw K ps F') as (kps & K' & FK).
  exists kps, fs'. split; [exact K'|]. split; [exact R|].
  replace (recording kps) with (concat (map wire_bytes kw)); [exact O|].
  symmetry. apply wires_bytes. clear -FK. induction FK; constructor; assumption.
Qed.
Print Assumptions C96_filter.

(* Merging recordings: one group for each key among the groups of the packets that were written, in the order of C19. *)
Lemma alike_gkey_fit : forall m g g', place_free (mg_time m) -> same_group g g' ->
  forall k, (exists f rest t, g_packets g = f :: rest /\ (sequence_flags (p_header f) = 1 \/ sequence_flags (p_header f) = 3)%N /\
    mg_time m f = Some t /\ within m t /\ requested m (apid_of f) /\ k = (t, apid_of f, seq f)) ->
  exists f rest t, g_packets g' = f :: rest /\ (sequence_flags (p_header f) = 1 \/ sequence_flags (p_header f) = 3)%N /\
    mg_time m f = Some t /\ within m t /\ requested m (apid_of f) /\ k = (t, apid_of f, seq f).
Proof.
  intros m g g' PF [_ SG] k (f & rest & t & E & K & T & W & R & ->). rewrite E in SG. inversion SG as [|? f' ? rest' SF _ E' E'']; subst.
  exists f', rest', t. split; [reflexivity|]. rewrite <- (same_time m f f' PF SF), <- (same_apid f f' SF).
  destruct SF as [EH _]. unfold seq. rewrite <- EH. auto 10.
Qed.
Lemma Forall2_flip_same : forall gs gs', Forall2 same_group gs gs' -> Forall2 same_group gs' gs.
Proof. induction 1; constructor; [apply same_group_sym; assumption|assumption]. Qed.
Lemma Forall2_in_r : forall A B (R : A -> B -> Prop) l l' y, Forall2 R l l' -> In y l' -> exists x, In x l /\ R x y.
Proof. intros A B R l l' y F. induction F as [|a b l l' E F IH]; intros []; [subst; exists a; split; [left; reflexivity|exact E]|]. destruct (IH H) as (x & I & X). exists x. split; [right; exact I|exact X]. Qed.
Theorem C96_merge : forall h fs m0 order ps, mg_order m0 = [] -> let m := with_apid_order m0 order in
  hash_ok h -> place_free (mg_time m0) ->
  (forall p, In p (mg_paths m) -> fs p = Some (recording (ps p)) /\ Forall whole (ps p) /\ Forall moderate (ps p)) ->
  exists sel keys, merge h fs m = Val (Ok (concat (map group_bytes sel))) /\
    Forall2 (wanted m ps) sel keys /\ NoDup keys /\ (forall g k, wanted m ps g k -> In k keys) /\
    forall t t' a a' s s' o o', before keys (t, a, s) (t', a', s') -> order_value order a o -> order_value order a' o' ->
      (t < t' \/ t = t' /\ o <= o')%Z.
Proof.
  intros h fs m0 order ps E0 m H PF R.
  assert (PF' : place_free (mg_time m)) by exact PF.
  assert (WS : exists ws, forall p, In p (mg_paths m) -> file_holds (recording (ps p)) (ws p) /\ packets_at 0 (ws p) = placed 0 (ps p)).
  { assert (X : forall l, (forall p, In p l -> Forall whole (ps p) /\ Forall moderate (ps p)) ->
      exists ws : N -> list wire_packet, forall p, In p l -> file_holds (recording (ps p)) (ws p) /\ packets_at 0 (ws p) = placed 0 (ps p)).
    { induction l as [|p l IH]; intros Q; [exists (fun _ => []); intros p []|].
      destruct IH as (ws & W); [intros; apply Q; right; assumption|]. destruct (Q p (or_introl eq_refl)) as [Q1 Q2].
      destruct (recording_holds (ps p) Q1 Q2) as (w & FH & A & _). exists (fun x => if (x =? p)%N then w else ws x).
      intros q I. destruct (N.eqb_spec q p) as [->|N]; [auto|]. destruct I as [I|I]; [congruence|]. apply W. exact I. }
    apply X. intros p I. destruct (R p I) as (_ & A & B). auto. }
  destruct WS as (ws & W).
  assert (RD : readable fs m ws) by (intros p I; exists (recording (ps p)); split; [apply (R p I)|apply (W p I)]).
  destruct (C19_merge_sorted h fs m0 order ws E0 H RD) as (sel & EM & (SE & ND & SC) & SO). fold m in EM, SE, ND, SC, SO.
  rewrite Forall_forall in SE.
  (* eligible groups and wanted groups correspond *)
  assert (EW : forall g, eligible m ws g -> exists g' k, wanted m ps g' k /\ gkey m g = Some k /\ same_group g' g).
  { intros g (p & gs & f & rest & t & I & G & Ig & E & K & T & Wi & Rq). destruct (W p I) as [_ A]. rewrite A in G.
    destruct (grouping_same _ _ G (ps p)) as (gs' & G' & SG).
    { generalize 0. clear. induction (ps p) as [|q l IH]; intro off; cbn [placed]; constructor; [split; reflexivity|apply IH]. }
    destruct (Forall2_in_l _ _ _ _ _ g SG Ig) as (g' & Ig' & SGg). exists g', (t, apid_of f, seq f).
    destruct (alike_gkey_fit m g g' PF' SGg (t, apid_of f, seq f)) as (f' & rest' & t' & E' & K' & T' & W' & R' & KE); [exists f, rest, t; auto 10|].
    split; [exists p, gs', f', rest', t'; auto 12|]. split; [unfold gkey; rewrite E, T; reflexivity|apply same_group_sym; exact SGg]. }
  assert (WE : forall g' k, wanted m ps g' k -> exists g, eligible m ws g /\ gkey m g = Some k).
  { intros g' k (p & gs' & f' & rest' & t & I & G & Ig & E & K & T & Wi & Rq & ->). destruct (W p I) as [_ A].
    destruct (grouping_same _ _ G (placed 0 (ps p)) (placed_alike _ 0)) as (gs & G' & SG). rewrite <- A in G'.
    destruct (Forall2_in_l _ _ _ _ _ g' SG Ig) as (g & Ig' & SGg). exists g.
    destruct (alike_gkey_fit m g' g PF' SGg (t, apid_of f', seq f')) as (f & rest & t' & E' & K' & T' & W' & R' & KE); [exists f', rest', t; auto 10|].
    split; [exists p, gs, f, rest, t'; auto 12|]. unfold gkey. rewrite E', T', KE. reflexivity. }
  assert (P : exists sel' keys, Forall2 (wanted m ps) sel' keys /\ map (gkey m) sel = map Some keys /\ concat (map group_bytes sel') = concat (map group_bytes sel)).
  { clear -SE EW. induction sel as [|g sel IH]; [exists [], []; repeat split; constructor|].
    destruct IH as (sel' & keys & A & B & C); [intros; apply SE; right; assumption|].
    destruct (EW g (SE g (or_introl eq_refl))) as (g' & k & W1 & W2 & W3). exists (g' :: sel'), (k :: keys).
    split; [constructor; assumption|]. cbn [map concat]. rewrite W2, B, C, (same_group_bytes1 _ _ W3). auto. }
  destruct P as (sel' & keys & P1 & P2 & P3). exists sel', keys. rewrite P3. split; [exact EM|]. split; [exact P1|].
  split; [rewrite P2 in ND; eapply NoDup_map_inv; exact ND|]. split.
  - intros g k Wn. destruct (WE g k Wn) as (g1 & EL & GK). destruct (SC g1 EL) as (g2 & I & E). rewrite GK in E.
    apply (in_map (gkey m)) in I. rewrite E, P2 in I. apply in_map_iff in I. destruct I as (k' & [= ->] & I). exact I.
  - intros t t' a a' s s' o o' BF OA OA'. destruct BF as (l1 & l2 & l3 & ->). rewrite map_app in P2. cbn [map] in P2. rewrite map_app in P2. cbn [map] in P2.
    apply map_eq_app in P2. destruct P2 as (s1 & r1 & -> & _ & P2). apply map_eq_cons in P2. destruct P2 as (x & r2 & -> & GX & P2).
    apply map_eq_app in P2. destruct P2 as (s2 & r3 & -> & _ & P2). apply map_eq_cons in P2. destruct P2 as (y & s3 & -> & GY & _).
    apply (SO x y t t' a a' s s' o o'); [exists s1, s2, s3; reflexivity|assumption..].
Qed.
Print Assumptions C96_merge.

(* Such a packet does come out of frames. *)
Definition carrier (here : bool) (payload : list N) : frame :=
  mkFrame (mkVcdu 1 0 0 0) 0 None ([64; 0; 0; 0; 0; 0]%N ++ (if here then [0; 0] else [7; 255])%N ++ payload).
Lemma carrier_facts : forall here payload, bytes_ok payload ->
  bytes_ok (f_data (carrier here payload)) /\ long_enough 0 0 (carrier here payload) /\ payload_of 0 0 (carrier here payload) = payload /\
  pointer_of 0 0 (carrier here payload) = if here then 0 else 2047.
Proof.
  intros here payload B. split; [|split; [|split]].
  - cbn [carrier f_data]. apply Forall_app. split; [repeat constructor|]. apply Forall_app. split; [|exact B]. destruct here; repeat constructor.
  - unfold long_enough. destruct here; cbn; lia.
  - unfold payload_of, zone_of. cbn [carrier f_data]. rewrite Nat.sub_0_r, firstn_all. destruct here; reflexivity.
  - unfold pointer_of, zone_of. cbn [carrier f_data]. rewrite Nat.sub_0_r, firstn_all. cbn [Nat.add].
    destruct here.
    + change (skipn 6 _) with ([0; 0]%N ++ payload). rewrite field_app_l by (cbn [length]; lia). reflexivity.
    + change (skipn 6 _) with ([7; 255]%N ++ payload). rewrite field_app_l by (cbn [length]; lia). reflexivity.
Qed.
Lemma carried_rest : forall w n a, wire_ok w -> 0 < a -> length (wire_bytes w) - a <= n -> a <= length (wire_bytes w) ->
  exists fs, carries 0 0 [w] a fs (length (wire_bytes w)) /\ Forall (fun f => v_vcid (f_header f) = 0%N) fs /\ Forall (fun f => f_missing f = 0%N) fs /\
    frames_ok 0 0 fs.
Proof.
  intros w n a W. revert a. induction n as [|n IH]; intros a A L LE.
  - exists []. replace a with (length (wire_bytes w)) by lia. repeat split; constructor.
  - destruct (Nat.eq_dec a (length (wire_bytes w))) as [->|NE]; [exists []; repeat split; constructor|].
    assert (B : bytes_ok (stream [w])) by (unfold stream; cbn [map concat]; rewrite app_nil_r; apply (wire_bytes_props w W)).
    assert (SL : length (stream [w]) = length (wire_bytes w)) by (unfold stream; cbn [map concat]; rewrite app_nil_r; reflexivity).
    set (c := min 1024 (length (wire_bytes w) - a)).
    assert (C : c <= length (wire_bytes w) - a /\ c <= 1024 /\ 1 <= c) by (unfold c; lia). clearbody c.
    destruct (IH (a + c)) as (fs & F1 & F2 & F3 & F4); [lia..|].
    set (payload := firstn c (skipn a (stream [w]))).
    assert (BP : bytes_ok payload) by (apply bytes_ok_firstn, bytes_ok_skipn; exact B).
    destruct (carrier_facts false payload BP) as (K1 & K2 & K3 & K4).
    exists (carrier false payload :: fs). split; [|split; [|split]].
    + apply carries_cons with (n := c); [exact K1|exact K2| |lia|lia|rewrite K3; reflexivity| |exact F1].
      * intros [X|X]; discriminate X.
      * rewrite K4. right. split; [|reflexivity]. intros y (w' & [E|[]]). injection E as <- _. left. exact A.
    + constructor; [reflexivity|exact F2].
    + constructor; [reflexivity|exact F3].
    + constructor; [split; assumption|exact F4].
Qed.
Theorem C96_long_packet_in_frames : forall w, wire_ok w -> telemetry w -> (65529 < len_minus1 (w_header w))%N ->
  exists fs, frames_ok 0 0 fs /\ yields (fpiter_next 0 0) (packet_decoder fs) [pk w] /\ whole (pk w) /\ ~ moderate (pk w) /\
    pdec_next (pdec_new (reader_of (recording [pk w]))) = Panic.
Proof.
  intros w W T L. destruct (wire_bytes_props w W) as (B & L7 & _).
  assert (SL : stream [w] = wire_bytes w) by (unfold stream; cbn [map concat]; rewrite app_nil_r; reflexivity).
  destruct (carried_rest w (length (wire_bytes w)) 1 W) as (fs & F1 & F2 & F3 & F4); [lia..|].
  assert (BP : bytes_ok (firstn 1 (wire_bytes w))) by (apply bytes_ok_firstn; exact B).
  destruct (carrier_facts true _ BP) as (K1 & K2 & K3 & K4).
  assert (FO : frames_ok 0 0 (carrier true (firstn 1 (wire_bytes w)) :: fs)) by (constructor; [split; assumption|exact F4]).
  assert (Y : yields (fpiter_next 0 0) (packet_decoder (carrier true (firstn 1 (wire_bytes w)) :: fs)) [pk w]).
  { apply (C36_round_trip 0 0 [w] 0%N); [repeat constructor; apply W|repeat constructor; apply T| |constructor; [reflexivity|exact F2]|exact F3].
    rewrite SL. apply carries_cons with (n := 1); [exact K1|exact K2|intros [X|X]; discriminate X|rewrite SL; lia|lia|rewrite K3, SL; reflexivity| |exact F1].
    rewrite K4. left. exists 0. split; [exists w; left; reflexivity|]. split; [lia|]. split; [intros; lia|reflexivity]. }
  exists (carrier true (firstn 1 (wire_bytes w)) :: fs). split; [exact FO|]. split; [exact Y|].
  assert (WH : whole (pk w)) by (pose proof (C96_from_frames 0 0 _ _ FO Y) as H; inversion H; assumption).
  split; [exact WH|]. split.
  - unfold moderate, pk. cbn [p_data]. destruct W as (_ & _ & WL). unfold wire_bytes. rewrite app_length. change (length (encode_header (w_header w))) with 6. lia.
  - unfold recording. cbn [map concat pk p_data]. rewrite app_nil_r. apply (C05_max_length_refuted w W L).
Qed.
Print Assumptions C96_long_packet_in_frames.

(* ---- a concrete case: the frames of C36, recorded, cut, grouped, merged ---- *)
Example C96_ex : frames_ok 1 2 ex_fs /\ yields (fpiter_next 1 2) (packet_decoder ex_fs) (map pk ex_ws) /\
  Forall whole (map pk ex_ws) /\ Forall moderate (map pk ex_ws) /\ length (recording (map pk ex_ws)) = 28 /\
  map p_offset (placed 0 (map pk ex_ws)) = [0; 9; 20] /\
  map snd (filter (fun kn => Nat.eqb (length (fst (run pdec_next 9 (pdec_new (reader_of (firstn (snd kn) (recording (map pk ex_ws)))))))) (fst kn))
    [(0, 8); (1, 9); (1, 19); (2, 20); (2, 27); (3, 28)]) = [8; 9; 19; 20; 27; 28].
Proof.
  assert (FO : frames_ok 1 2 ex_fs).
  { assert (X : forall iz tr ws a fs e, carries iz tr ws a fs e -> frames_ok iz tr fs) by (intros iz tr ws a fs e C; induction C; constructor; [split; assumption|assumption]).
    exact (X _ _ _ _ _ _ C36_ex_carries). }
  destruct C36_ex as (W & _ & Y & _). split; [exact FO|]. split; [exact Y|].
  split; [exact (C96_from_frames 1 2 ex_fs _ FO Y)|]. split; [repeat constructor; vm_compute; discriminate|].
  split; [reflexivity|]. split; [reflexivity|]. vm_compute. reflexivity.
Qed.
Example C96_ex_long : exists w, wire_ok w /\ telemetry w /\ (65529 < len_minus1 (w_header w))%N.
Proof.
  exists (mkWire (mkHeader 0 0 false 0 3 0 65535) (repeat 0%N (N.to_nat 65536))).
  split; [|split; [split; reflexivity|reflexivity]]. split; [|split].
  - repeat split; reflexivity.
  - apply bytes_ok_repeat0.
  - cbn [w_body w_header len_minus1]. rewrite repeat_length, N2Nat.id. reflexivity.
Qed.
(* two passes recorded, with a packet in both *)
Definition rec_ps (p : N) : list packet := map pk (mg_ws p).
Example C96_ex_merge :
  (forall p, Forall whole (rec_ps p) /\ Forall moderate (rec_ps p)) /\ place_free (mg_time mg_m) /\
  merge reversed (fun p => Some (recording (rec_ps p))) mg_m = Val (Ok (concat (map wire_bytes
    [mg_wire 900 1 9 21999 [3]; mg_wire 821 3 7 22000 [1]; mg_wire 826 3 4 22000 [2]]%N))).
Proof.
  split; [|split; [intros h d o o'; reflexivity|vm_compute; reflexivity]].
  intro p. unfold rec_ps. split; unfold mg_ws; destruct (p =? 0)%N; repeat constructor; vm_compute; try discriminate; lia.
Qed.
