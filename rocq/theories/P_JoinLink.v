(* Property C104, second part: recorded streams of CADUs joined, and what is decoded of them *)
From Verif Require Import Base S_Bits M_Reader M_Sync S_Sync L_Base L_Bits L_SyncBits L_SyncIter P_Sync M_Packet M_Frame M_FramePackets S_Packet S_Group S_Frame
  S_FramePackets L_Frame L_FramePackets P_Frame S_Join.
Open Scope nat_scope.

(* ---- blocks ---- *)
Lemma designates_fun : forall l d d', designates l d -> designates l d' -> d = d'.
Proof. intros l d d' (_ & A & _) (_ & B & _). congruence. Qed.
Lemma loc_later : forall n d, loc_at (8 * n + d) = mkLoc (n + l_offset (loc_at d)) (l_bit (loc_at d)).
Proof.
  intros n d. unfold loc_at. cbn [l_offset l_bit]. replace (8 * n + d) with (d + n * 8) by lia. rewrite Nat.div_add, Nat.mod_add by lia. f_equal. lia.
Qed.
Section Joined.
Variables (asm : list N) (len : nat) (A B : list bool).
Lemma earliest_front : forall pos p, p + 8 * length asm <= length A -> earliest asm A pos p -> earliest asm (A ++ B) pos p.
Proof.
  intros pos p L (P & O & M). split; [exact P|]. split; [apply occurs_app; assumption|]. intros q Q X. apply (M q Q). apply (occurs_app asm A B); [lia|exact X].
Qed.
Lemma earliest_back : forall pos p, earliest asm B pos p -> earliest asm (A ++ B) (length A + pos) (length A + p).
Proof.
  intros pos p (P & O & M). split; [lia|]. split; [apply occurs_shift; [lia|]; rewrite Nat.add_comm, Nat.add_sub; exact O|].
  intros q Q X. apply (occurs_shift asm A B) in X; [|lia]. apply (M (q - length A)); [lia|exact X].
Qed.
Lemma no_more_back : forall pos, no_more asm B pos -> no_more asm (A ++ B) (length A + pos).
Proof. intros pos M q Q X. apply (occurs_shift asm A B) in X; [|lia]. apply (M (q - length A)); [lia|exact X]. Qed.
Lemma run_front : forall pos last items, sync_run asm len A pos last items -> forall init b d, items = init ++ [Ok b] -> designates (bl_loc b) d ->
  d + 8 * len = length A -> forall rest, sync_run asm len (A ++ B) (length A) (l_offset (bl_loc b)) rest -> sync_run asm len (A ++ B) pos last (items ++ rest).
Proof.
  induction 1 as [pos last M|pos last p d0 data items E D L OK DA R IH|pos last p d0 data E D L AL OK LD DA|pos last p d0 E D L AL]; intros init b d EQ DE F rest RR.
  - destruct init; discriminate.
  - cbn [app]. eapply run_block with (d := d0) (p := p); [apply earliest_front; [lia|exact E]|exact D|rewrite app_length; lia|exact OK| |].
    + rewrite DA, skipn_app, firstn_app, skipn_length. replace (8 * len - (length A - d0)) with 0 by lia. rewrite firstn_O, app_nil_r. reflexivity.
    + destruct init as [|i init]; cbn [app] in EQ; injection EQ as EQ1 EQ2.
      * subst items b. cbn [bl_loc] in *. cbn [app]. rewrite (designates_fun _ _ _ (loc_at_designates d0) DE). rewrite F. rewrite <- (designates_fun _ _ _ (loc_at_designates d0) DE). exact RR.
      * eapply IH; eassumption.
  - exfalso. destruct init as [|i [|]]; cbn [app] in EQ; try discriminate. injection EQ as <-. cbn [bl_loc] in DE. rewrite (designates_fun _ _ _ (loc_at_designates d0) DE) in L. lia.
  - destruct init as [|i [|]]; discriminate.
Qed.
Definition moved_item (n : nat) (r : result block) : result block := match r with Ok b => Ok (later_block n b) | Err e => Err e end.
Lemma offset_pos : forall d, 1 <= l_offset (loc_at d). Proof. intro d. unfold loc_at. cbn [l_offset]. lia. Qed.
Lemma back_data : forall d k, firstn k (skipn (length A + d) (A ++ B)) = firstn k (skipn d B).
Proof. intros d k. rewrite skipn_app, skipn_all2 by lia. cbn [app]. do 2 f_equal. lia. Qed.
Lemma run_back : forall n, length A = 8 * n -> forall pos last items, sync_run asm len B pos last items -> last <> 0 ->
  sync_run asm len (A ++ B) (length A + pos) (n + last) (map (moved_item n) items).
Proof.
  intros n LA. induction 1 as [pos last M|pos last p d data items E D L OK DA R IH|pos last p d data E D L AL OK LD DA|pos last p d E D L AL]; intro NZ; cbn [map moved_item].
  - apply run_end, no_more_back, M.
  - specialize (IH ltac:(assert (P := offset_pos d); lia)).
    replace (Ok (later_block n _)) with (Ok (mkBlock (if n + last =? 0 then 0 else l_offset (loc_at (length A + d)) - (n + last)) (loc_at (length A + d)) data) : result block).
    2:{ unfold later_block. cbn [bl_last bl_loc bl_data]. rewrite LA, loc_later. cbn [l_offset]. destruct (Nat.eqb_spec (n + last) 0); [lia|]. destruct (Nat.eqb_spec last 0); [lia|]. do 2 f_equal. lia. }
    eapply run_block; [apply earliest_back; exact E|lia|rewrite app_length; lia|exact OK|rewrite back_data; exact DA|].
    rewrite <- Nat.add_assoc. replace (l_offset (loc_at (length A + d))) with (n + l_offset (loc_at d)) by (rewrite LA, loc_later; reflexivity). exact IH.
  - replace (Ok (later_block n _)) with (Ok (mkBlock (if n + last =? 0 then 0 else l_offset (loc_at (length A + d)) - (n + last)) (loc_at (length A + d)) data) : result block).
    2:{ unfold later_block. cbn [bl_last bl_loc bl_data]. rewrite LA, loc_later. cbn [l_offset]. destruct (Nat.eqb_spec (n + last) 0); [lia|]. destruct (Nat.eqb_spec last 0); [lia|]. do 2 f_equal. lia. }
    eapply run_truncated_aligned; [apply earliest_back; exact E|lia|rewrite app_length; lia| |exact OK|exact LD|].
    + rewrite LA. replace (8 * n + d) with (d + n * 8) by lia. rewrite Nat.mod_add by lia. exact AL.
    + rewrite skipn_app, skipn_all2 by lia. cbn [app]. replace (length A + d - length A) with d by lia. rewrite app_length. replace (length A + length B - (length A + d)) with (length B - d) by lia. exact DA.
  - eapply run_truncated_shifted with (p := length A + p) (d := length A + d); [apply earliest_back; exact E|lia|rewrite app_length; lia|].
    rewrite LA. replace (8 * n + d) with (d + n * 8) by lia. rewrite Nat.mod_add by lia. exact AL.
Qed.
Lemma run_back0 : forall n last', length A = 8 * n -> last' <> 0 -> forall pos items, sync_run asm len B pos 0 items ->
  sync_run asm len (A ++ B) (length A + pos) last' (later_blocks n last' items).
Proof.
  intros n last' LA NZ pos items R. unfold later_blocks. fold (moved_item n). 
  inversion R as [pos0 last0 M|pos0 last0 p d data rest E D L OK DA R'|pos0 last0 p d data E D L AL OK LD DA|pos0 last0 p d E D L AL]; subst pos0 last0 items; cbn [map moved_item later_block bl_loc bl_data l_offset].
  - apply run_end, no_more_back, M.
  - assert (IH := run_back n LA _ _ _ R' ltac:(assert (P := offset_pos d); lia)).
    replace (Ok _) with (Ok (mkBlock (if last' =? 0 then 0 else l_offset (loc_at (length A + d)) - last') (loc_at (length A + d)) data) : result block).
    2:{ rewrite LA, loc_later. cbn [l_offset]. destruct (Nat.eqb_spec last' 0); [lia|]. reflexivity. }
    eapply run_block; [apply earliest_back; exact E|lia|rewrite app_length; lia|exact OK|rewrite back_data; exact DA|].
    rewrite <- Nat.add_assoc. replace (l_offset (loc_at (length A + d))) with (n + l_offset (loc_at d)) by (rewrite LA, loc_later; reflexivity). exact IH.
  - replace (Ok _) with (Ok (mkBlock (if last' =? 0 then 0 else l_offset (loc_at (length A + d)) - last') (loc_at (length A + d)) data) : result block).
    2:{ rewrite LA, loc_later. cbn [l_offset]. destruct (Nat.eqb_spec last' 0); [lia|]. reflexivity. }
    eapply run_truncated_aligned; [apply earliest_back; exact E|lia|rewrite app_length; lia| |exact OK|exact LD|].
    + rewrite LA. replace (8 * n + d) with (d + n * 8) by lia. rewrite Nat.mod_add by lia. exact AL.
    + rewrite skipn_app, skipn_all2 by lia. cbn [app]. replace (length A + d - length A) with d by lia. rewrite app_length. replace (length A + length B - (length A + d)) with (length B - d) by lia. exact DA.
  - eapply run_truncated_shifted with (p := length A + p) (d := length A + d); [apply earliest_back; exact E|lia|rewrite app_length; lia|].
    rewrite LA. replace (8 * n + d) with (d + n * 8) by lia. rewrite Nat.mod_add by lia. exact AL.
Qed.
End Joined.
(* When the first stream ends with a block, the blocks of both streams joined are those of the first and then those of the second, at
   later offsets *)
Theorem C104_blocks : forall asm len ra rb rc a b itemsa last d itemsb, bytes_ok asm -> asm <> [] -> bytes_ok a -> bytes_ok b ->
  delivers ra a -> delivers rb b -> delivers rc (a ++ b) ->
  yields biter_next (synchronize ra asm len) (itemsa ++ [Ok last]) -> designates (bl_loc last) d -> d + 8 * len = 8 * length a ->
  yields biter_next (synchronize rb asm len) itemsb ->
  yields biter_next (synchronize rc asm len) ((itemsa ++ [Ok last]) ++ later_blocks (length a) (l_offset (bl_loc last)) itemsb).
Proof.
  intros asm len ra rb rc a b ia last d ib HA NA OA OB DA DB DC YA DE F YB.
  apply (sync_iff asm len ra a) in YA; try assumption. apply (sync_iff asm len rb b) in YB; try assumption.
  apply (sync_iff asm len rc (a ++ b)); try assumption; [apply bytes_ok_app; split; assumption|].
  rewrite bits_app. assert (LA : length (bits a) = 8 * length a) by apply bits_length.
  eapply run_front; [exact YA|reflexivity|exact DE|lia|].
  replace (length (bits a)) with (length (bits a) + 0) by lia. apply run_back0; [exact LA| |exact YB]. destruct DE as (P & _). lia.
Qed.
Print Assumptions C104_blocks.

(* ---- frames ---- *)
Lemma previous_app : forall v fs gs, previous_counter v (fs ++ gs) = match previous_counter v gs with Some c => Some c | None => previous_counter v fs end.
Proof.
  intros v fs gs. induction fs as [|f fs IH]; cbn [app previous_counter]; [destruct (previous_counter v gs); reflexivity|].
  rewrite IH. destruct (previous_counter v gs); [reflexivity|]. reflexivity.
Qed.
Lemma previous_in : forall v fs, previous_counter v fs <> None <-> In v (map chan fs).
Proof.
  intros v fs. induction fs as [|f fs IH]; cbn [previous_counter map In]; [split; [congruence|tauto]|].
  rewrite <- IH. unfold chan. destruct (previous_counter v fs) as [c|]; [split; [right; congruence|congruence]|].
  destruct (N.eqb_spec (v_vcid (f_header f)) v); split; intro X; try congruence; [left; exact e|destruct X; congruence].
Qed.
Lemma previous_same : forall v fs gs, Forall2 same_frame fs gs -> previous_counter v fs = previous_counter v gs.
Proof. induction 1 as [|f g fs gs (E & _) _ IH]; cbn [previous_counter]; [reflexivity|]. rewrite IH, E. reflexivity. Qed.
Lemma Forall2_nth : forall {A B : Type} (R : A -> B -> Prop) l l', Forall2 R l l' -> forall k x y, nth_error l k = Some x -> nth_error l' k = Some y -> R x y.
Proof. induction 1 as [|x y l l' X F IH]; intros [|k] a b E E'; cbn in *; try discriminate; [congruence|eapply IH; eassumption]. Qed.
Lemma Forall2_firstn : forall {A B : Type} (R : A -> B -> Prop) l l', Forall2 R l l' -> forall k, Forall2 R (firstn k l) (firstn k l').
Proof. induction 1; intros [|k]; cbn; constructor; auto. Qed.
Lemma decoded_joined : forall ovf a before fa, decoded ovf before a fa -> length fa = length a ->
  forall b fs, decoded ovf before (a ++ b) fs -> exists fb, fs = fa ++ fb /\ decoded ovf (before ++ fa) b fb.
Proof.
  induction 1 as [before|before c rest E|before c rest f fa F MR D IH]; intros L b fs DJ.
  - exists fs. rewrite app_nil_r. split; [reflexivity|exact DJ].
  - discriminate.
  - cbn [app length] in *. inversion DJ as [|? ? ? E|? ? ? g gs G MG DG]; subst.
    + destruct F as (_ & F & _). congruence.
    + assert (f = g) as <-.
      { destruct F as (F1 & F2 & F3), G as (G1 & G2 & G3). destruct f as [fh fm fi fd], g as [gh gm gi gd]. cbn [f_data f_header f_integrity f_missing] in *. subst.
        rewrite F2 in G2. injection G2 as <-. f_equal. unfold missing_rule, vcid_of, counter_of in *. cbn [f_header f_missing] in *.
        destruct (v_vcid fh =? 63)%N; [congruence|]. destruct (last_counter (v_vcid fh) before); congruence. }
      destruct (IH ltac:(lia) _ _ DG) as (fb & -> & DB). exists fb. split; [reflexivity|]. rewrite <- app_assoc in DB. exact DB.
Qed.
Lemma same_trans : forall f g c, frame_of c f -> frame_of c g -> same_frame f g.
Proof.
  intros f g c (F1 & F2 & F3) (G1 & G2 & G3). rewrite F2 in G2. injection G2 as E.
  split; [exact E|]. split; [congruence|]. congruence.
Qed.
Lemma decoded_both : forall ovf b before fb, decoded ovf before b fb -> forall before' fb', decoded ovf before' b fb' -> Forall2 same_frame fb fb'.
Proof.
  induction 1 as [before|before c rest E|before c rest f fs F MR D IH]; intros before' fb' D'; inversion D' as [|? ? ? E'|? ? ? f' fs' F' MR' DD]; subst;
    try constructor; try (destruct F as (_ & F & _); congruence); try (destruct F' as (_ & F' & _); congruence).
  - eapply same_trans; eassumption.
  - eapply IH; eassumption.
Qed.
(* Streams of CADUs joined, all of the first decodable: the frames of the first, and then those of the second, of which only the first
   of a channel may have another number of missing frames: the one counted from the last frame of the channel in the first stream *)
Theorem C104_frames : forall ovf a b fa fb fs,
  Forall (fun c => vcdu_decode (bl_data c) <> Val None) a ->
  yields (fdec_next ovf) (frame_decoder a) fa -> yields (fdec_next ovf) (frame_decoder b) fb ->
  yields (fdec_next ovf) (frame_decoder (a ++ b)) fs ->
  exists fb', fs = fa ++ fb' /\ same_frames fb fb' /\
    forall k f, nth_error fb' k = Some f -> ~ In (chan f) (map chan (firstn k fb')) ->
      match previous_counter (chan f) fa with
      | Some last => if (chan f =? 63)%N then f_missing f = 0%N else missing_frames ovf (v_counter (f_header f)) last = Val (f_missing f)
      | None => f_missing f = 0%N
      end.
Proof.
  intros ovf a b fa fb fs HA YA YB YC.
  assert (LA := C34_stops_exactly_there _ _ _ YA HA).
  destruct (C33_frames _ _ _ YB) as [KB _]. destruct (C33_frames _ _ _ YC) as [KC _].
  apply (decoded_iff ovf a [] [] fa) in YA; [|intro v; reflexivity].
  apply (decoded_iff ovf (a ++ b) [] [] fs) in YC; [|intro v; reflexivity].
  apply (decoded_iff ovf b [] [] fb) in YB; [|intro v; reflexivity].
  destruct (decoded_joined _ _ _ _ YA LA _ _ YC) as (fb' & -> & DB).
  assert (SF := decoded_both _ _ _ _ YB _ _ DB).
  assert (RC : forall k f, nth_error fb' k = Some f -> (chan f = 63%N -> f_missing f = 0%N) /\ (chan f <> 63%N ->
     match previous_counter (chan f) (fa ++ firstn k fb') with None => f_missing f = 0%N | Some l => missing_frames ovf (v_counter (f_header f)) l = Val (f_missing f) end)).
  { intros k f E. destruct (KC (length fa + k) f) as (c & _ & _ & _ & _ & R1 & R2).
    { rewrite nth_error_app2 by lia. rewrite <- E. f_equal. lia. }
    rewrite firstn_app, firstn_all2 in R2 by lia. replace (length fa + k - length fa) with k in R2 by lia. split; [exact R1|exact R2]. }
  exists fb'. split; [reflexivity|]. split; [split; [exact SF|]|].
  - intros k f g EF EG I. assert (SG := Forall2_nth _ _ _ SF _ _ _ EF EG).
    destruct (KB k f EF) as (_ & _ & _ & _ & _ & B1 & B2). destruct (RC k g EG) as [C1 C2].
    destruct SG as (S1 & S2 & S3). assert (CH : chan f = chan g) by (unfold chan; rewrite S1; reflexivity).
    assert (MS : f_missing f = f_missing g).
    { destruct (N.eq_dec (chan f) 63) as [E63|N63]; [rewrite (B1 E63), (C1 ltac:(congruence)); reflexivity|].
      specialize (B2 N63). specialize (C2 ltac:(congruence)). rewrite previous_app, <- CH, <- (previous_same (chan f) _ _ (Forall2_firstn _ _ _ SF k)) in C2.
      apply previous_in in I. unfold chan in *. destruct (previous_counter (v_vcid (f_header f)) (firstn k fb)) as [l|]; [|contradiction].
      rewrite <- S1 in C2. congruence. }
    destruct f as [fh fm fi fd], g as [gh gm gi gd]. cbn [f_header f_missing f_integrity f_data] in *. congruence.
  - intros k f E NI. destruct (RC k f E) as [C1 C2].
    assert (NP : previous_counter (chan f) (firstn k fb') = None).
    { destruct (previous_counter (chan f) (firstn k fb')) eqn:EP; [|reflexivity]. exfalso. apply NI, previous_in. congruence. }
    rewrite previous_app, NP in C2.
    destruct (N.eqb_spec (chan f) 63) as [E63|N63]; [specialize (C1 E63); destruct (previous_counter (chan f) fa); exact C1|].
    specialize (C2 N63). destruct (previous_counter (chan f) fa); exact C2.
Qed.
Print Assumptions C104_frames.

(* ---- packets of the frames ---- *)
Section Seam.
Variables (izone trailer : nat).
Lemma step_same : forall f f' ps st', same_frame f f' -> vc_step izone trailer None f ps st' -> vc_step izone trailer None f' ps st'.
Proof.
  intros f f' ps st' (S1 & S2 & S3) V.
  assert (PE : payload_of izone trailer f = payload_of izone trailer f') by (unfold payload_of, zone_of; rewrite S3; reflexivity).
  assert (QE : pointer_of izone trailer f = pointer_of izone trailer f') by (unfold pointer_of, zone_of; rewrite S3; reflexivity).
  assert (HE : has_start izone trailer f = has_start izone trailer f') by (unfold has_start; rewrite PE, QE; reflexivity).
  assert (BE : bad_frame f <-> bad_frame f') by (unfold bad_frame; rewrite S2; reflexivity).
  inversion V as [|? ? ? ? NB MZ CA|? ? ? ? NB X HS CA|? ? NB X HS]; subst.
  - apply vc_bad. tauto.
  - apply vc_start; [tauto|left; reflexivity|congruence|]. rewrite <- PE, <- QE. exact CA.
  - apply vc_skip; [tauto|left; reflexivity|congruence].
Qed.
Lemma step_break : forall f ps st st', f_missing f <> 0%N \/ bad_frame f -> vc_step izone trailer None f ps st' -> vc_step izone trailer st f ps st'.
Proof.
  intros f ps st st' BR V. inversion V as [|? ? ? ? NB MZ CA|? ? ? ? NB X HS CA|? ? NB X HS]; subst.
  - apply vc_bad. assumption.
  - apply vc_start; [assumption|right; tauto|assumption|assumption].
  - apply vc_skip; [assumption|right; tauto|assumption].
Qed.
Lemma seam_run : forall fa fb fb', Forall2 same_frame fb fb' -> forall seen g h cs,
  (forall k f f', nth_error fb k = Some f -> nth_error fb' k = Some f' -> In (chan f) seen \/ In (chan f) (map chan (firstn k fb)) -> f = f') ->
  (forall before f after, fb' = before ++ f :: after -> In (chan f) (map chan fa) -> ~ In (chan f) seen -> ~ In (chan f) (map chan before) -> f_missing f <> 0%N \/ bad_frame f) ->
  (forall v, In v seen -> h v = g v) -> (forall v, ~ In v seen -> g v = None) -> (forall v, ~ In v seen -> In v (map chan fa) \/ h v = None) ->
  mrun izone trailer g fb cs -> mrun izone trailer h fb' cs.
Proof.
  intros fa. induction 1 as [|f f' fb fb' SF F2 IH]; intros seen g h cs EQ BR HS HN HH R; inversion R as [|? g' ? ? ps rest st' V HG RR]; subst; [constructor|].
  assert (CH : chan f' = chan f) by (destruct SF as (S1 & _); unfold chan; rewrite S1; reflexivity).
  assert (V' : vc_step izone trailer (h (chan f')) f' ps st').
  { rewrite CH. destruct (in_dec N.eq_dec (chan f) seen) as [I|NI].
    - rewrite (HS _ I). assert (f = f') as <- by (apply (EQ 0 f f'); [reflexivity|reflexivity|left; exact I]). exact V.
    - rewrite (HN _ NI) in V. apply (step_same f f') in V; [|exact SF].
      destruct (in_dec N.eq_dec (chan f) (map chan fa)) as [IA|NA].
      + apply step_break; [|exact V]. apply (BR [] f' fb'); [reflexivity|rewrite CH; exact IA|rewrite CH; exact NI|intros []].
      + destruct (HH _ NI) as [X|X]; [contradiction|]. rewrite X. exact V. }
  eapply mrun_cons with (g' := fun v => if (v =? chan f')%N then st' else h v); [exact V'|reflexivity|].
  apply (IH (chan f :: seen) g').
  - intros k x x' E E' [[I|I]|I]; [apply (EQ (S k) x x'); [exact E|exact E'|]; right; cbn [firstn map]; left; exact I|apply (EQ (S k) x x'); [exact E|exact E'|left; exact I]|].
    apply (EQ (S k) x x'); [exact E|exact E'|right; cbn [firstn map]; right; exact I].
  - intros before x after E IA NS NB. apply (BR (f' :: before) x after); [rewrite E; reflexivity|exact IA| |].
    + intro X. apply NS. right. exact X.
    + cbn [map]. intros [X|X]; [apply NS; left; congruence|exact (NB X)].
  - intros v I. rewrite HG, CH. destruct (N.eqb_spec v (chan f)); [reflexivity|]. apply HS. destruct I as [<-|I]; [congruence|exact I].
  - intros v NI. rewrite HG. destruct (N.eqb_spec v (chan f)) as [->|NE]; [exfalso; apply NI; left; reflexivity|]. apply HN. intro X. apply NI. right. exact X.
  - intros v NI. rewrite CH. destruct (N.eqb_spec v (chan f)) as [->|NE]; [exfalso; apply NI; left; reflexivity|]. apply HH. intro X. apply NI. right. exact X.
  - exact RR.
Qed.
Lemma front_run : forall g fa ca, mrun izone trailer g fa ca -> exists h, (forall v, ~ In v (map chan fa) -> h v = g v) /\
  forall fb cb, mrun izone trailer h fb cb -> mrun izone trailer g (fa ++ fb) (ca ++ cb).
Proof.
  induction 1 as [g|g g' f fa ps rest st' V HG RR (h & H1 & H2)].
  - exists g. split; [reflexivity|]. intros fb cb R. exact R.
  - exists h. split.
    + intros v NI. cbn [map In] in NI. rewrite H1, HG by tauto. destruct (N.eqb_spec v (chan f)) as [->|]; [tauto|reflexivity].
    + intros fb cb R. cbn [app]. eapply mrun_cons; [exact V|exact HG|apply H2, R].
Qed.
End Seam.
(* The packets of the frames of joined streams are those of the frames of the first and then those of the frames of the second, when a
   break is seen at the seam in every channel that is in both *)
Theorem C104_frame_packets : forall izone trailer fa fb fb' pa pb, frames_ok izone trailer fa -> frames_ok izone trailer fb ->
  same_frames fb fb' -> breaks_after fa fb' ->
  yields (fpiter_next izone trailer) (packet_decoder fa) pa -> yields (fpiter_next izone trailer) (packet_decoder fb) pb ->
  yields (fpiter_next izone trailer) (packet_decoder (fa ++ fb')) (pa ++ pb).
Proof.
  intros izone trailer fa fb fb' pa pb OA OB (SF & EQ) BR YA YB.
  assert (OB' : frames_ok izone trailer fb').
  { clear -SF OB. unfold frames_ok, long_enough in *. induction SF as [|f f' fb fb' (_ & _ & E) _ IH]; constructor; inversion OB; subst; [|auto]. rewrite <- E. assumption. }
  apply decoder_iff in YA; [|exact OA]. apply decoder_iff in YB; [|exact OB]. destruct YA as (ca & RA & ->), YB as (cb & RB & ->).
  apply decoder_iff; [apply Forall_app; split; assumption|]. destruct (front_run _ _ _ _ _ RA) as (h & H1 & H2).
  exists (ca ++ cb). split; [|symmetry; apply concat_app]. apply H2. apply (seam_run izone trailer fa fb fb' SF [] (fun _ => None)).
  - intros k f f' E E' [[]|I]. exact (EQ k f f' E E' I).
  - intros before f after E IA _ NB. exact (BR before f after E IA NB).
  - intros v [].
  - reflexivity.
  - intros v _. destruct (in_dec N.eq_dec v (map chan fa)) as [I|NI]; [left; exact I|right; exact (H1 v NI)].
  - exact RB.
Qed.
Print Assumptions C104_frame_packets.
