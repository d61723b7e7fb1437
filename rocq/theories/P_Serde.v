(* C92: the library's types as JSON values. *)
From Coq Require Import String.
From Verif Require Import Base S_Bits S_Json S_Packet M_Json M_Reader M_Packet M_Group M_Frame M_Summary M_Config S_Config M_Merge S_Merge M_Serde S_Serde S_Cli L_Base L_Bits L_Packet L_Merge L_Json L_Text S_Text P_Packet P_Group P_Frame P_Config.
From Coq Require Import List NArith ZArith Bool Lia Permutation.
Import ListNotations.
Open Scope N_scope.

(* ---- structs ---- *)
Lemma find_all_lacks : forall k l, find_all (text k) l = [] <-> lacks l k.
Proof.
  intros k l. unfold lacks. induction l as [|[k' v] l IH]; cbn [find_all map fst In]; [tauto|].
  destruct (key_eqb_spec k' (text k)) as [->|D].
  - split; [discriminate|]. intro H. exfalso. apply H. left. reflexivity.
  - rewrite IH. split; [intros H [E|E]; [exact (D E)|exact (H E)]|tauto].
Qed.
Lemma find_all_once : forall k l v, find_all (text k) l = [v] <-> has_once l k v.
Proof.
  intros k l v. unfold has_once. induction l as [|[k' w] l IH]; cbn [find_all].
  - split; [discriminate|]. intros (b & a & E & _). destruct b; discriminate.
  - destruct (key_eqb_spec k' (text k)) as [->|D].
    + split.
      * intro E. injection E as -> E. apply find_all_lacks in E. exists [], l. repeat split; [intros []|exact E].
      * intros (b & a & E & Nb & Na). destruct b as [|[k2 w2] b].
        -- injection E as -> ->. f_equal. apply find_all_lacks, Na.
        -- injection E as <- _ _. exfalso. apply Nb. left. reflexivity.
    + rewrite IH. split.
      * intros (b & a & -> & Nb & Na). exists ((k', w) :: b), a. repeat split; [|exact Na]. intros [E|E]; [exact (D E)|exact (Nb E)].
      * intros (b & a & E & Nb & Na). destruct b as [|[k2 w2] b]; [injection E as E _ _; contradiction|]. injection E as <- <- ->.
        exists b, a. repeat split; [|exact Na]. intro I. apply Nb. right. exact I.
Qed.
Lemma fields_of_is : forall names l vs, fields_of names l = Some vs <->
  Forall2 (fun k o => match o with None => lacks l k | Some w => has_once l k w end) names vs.
Proof.
  induction names as [|k names IH]; intros l vs; cbn [fields_of].
  - split; [intro E; injection E as <-; constructor|]. intro F. inversion F. reflexivity.
  - split.
    + destruct (fields_of names l) as [r|] eqn:R; [|discriminate]. specialize (IH l r). apply IH in R as F.
      destruct (find_all (text k) l) as [|v [|]] eqn:E; try discriminate; intro X; injection X as <-; constructor; try assumption.
      * apply find_all_lacks, E.
      * apply find_all_once, E.
    + intro F. inversion F as [|k0 o names0 r H F' E1 E2]; subst. apply IH in F'. rewrite F'. destruct o as [w|].
      * apply find_all_once in H. rewrite H. reflexivity.
      * apply find_all_lacks in H. rewrite H. reflexivity.
Qed.
Lemma struct_is : forall names v vs, struct names v = Some vs <-> record_is names v vs.
Proof.
  intros names v vs. unfold struct, record_is. destruct v as [| | | | |l|l];
    try (split; [discriminate|]; intros [(x & E & _)|(x & E & _)]; discriminate).
  - split.
    + destruct (Nat.eqb_spec (List.length l) (List.length names)) as [E|]; [|discriminate]. intro X. injection X as <-. right. exists l. auto.
    + intros [(x & E & _)|(ws & E & L & ->)]; [discriminate|]. injection E as ->. rewrite L, Nat.eqb_refl. reflexivity.
  - rewrite fields_of_is. split.
    + intro F. left. exists l. auto.
    + intros [(x & E & F)|(x & E & _)]; [|discriminate]. injection E as ->. exact F.
Qed.
Lemma de_buf_is : forall v bs, de_buf v = Some bs <-> buffer v bs.
Proof.
  intros v bs. unfold de_buf, buffer. destruct v as [| | | |s|l|l]; rewrite ?de_bytes_is; try (split; [auto|intros [H|H]; [exact H|discriminate]]).
  split; [intro E; injection E as ->; right; reflexivity|]. intros [[E _]|E]; [discriminate|]. injection E as ->. reflexivity.
Qed.
Lemma must_is : forall A (de : jval -> option A) o x, must de o = Some x <-> exists v, o = Some v /\ de v = Some x.
Proof.
  intros A de o x. unfold must. destruct o as [v|]; split.
  - intro H. exists v. auto.
  - intros (w & E & H). injection E as ->. exact H.
  - discriminate.
  - intros (w & E & _). discriminate.
Qed.
Lemma de_all_is : forall A (de : jval -> option A) is, (forall v x, de v = Some x <-> is v x) ->
  forall l xs, de_all de l = Some xs <-> Forall2 is l xs.
Proof.
  intros A de is H. induction l as [|v l IH]; intros xs; cbn [de_all].
  - split; [intro E; injection E as <-; constructor|]. intro F. inversion F. reflexivity.
  - split.
    + destruct (de v) as [x|] eqn:E; [|discriminate]. destruct (de_all de l) as [r|] eqn:R; [|discriminate]. intro X. injection X as <-.
      constructor; [apply H, E|apply IH; reflexivity].
    + intro F. inversion F as [|v0 x l0 r P F' E1 E2]; subst. apply H in P. apply IH in F'. rewrite P, F'. reflexivity.
Qed.
Ltac some_of H := match type of H with
  | match ?e with _ => _ end = Some _ => let E := fresh "E" in destruct e eqn:E; try discriminate H
  end.
Lemma de_header_is : forall v h, de_header v = Some h <-> header_is v h.
Proof.
  intros v h. unfold de_header, header_is. split.
  - intro H. repeat some_of H. injection H as <-. cbn [version type_flag has_secondary_header apid sequence_flags sequence_id len_minus1].
    repeat match goal with E : must _ _ = Some _ |- _ => apply must_is in E; destruct E as (? & -> & ?) end.
    match goal with E : struct _ _ = Some _ |- _ => apply struct_is in E; do 7 eexists; split; [exact E|] end.
    repeat match goal with E : de_u8 _ = _ |- _ => apply de_uint_is in E | E : de_u16 _ = _ |- _ => apply de_uint_is in E | E : de_bool _ = _ |- _ => apply de_bool_is in E end.
    auto 10.
  - intros (a & b & c & d & e & f & g & R & H1 & H2 & H3 & H4 & H5 & H6 & H7). apply struct_is in R. rewrite R. cbn [must]. destruct h as [h1 h2 h3 h4 h5 h6 h7].
    cbn [version type_flag has_secondary_header apid sequence_flags sequence_id len_minus1] in *.
    apply (de_uint_is (2 ^ 8)) in H1, H2, H5. apply (de_uint_is (2 ^ 16)) in H4, H6, H7. apply de_bool_is in H3.
    unfold de_u8, de_u16. change 256 with (2 ^ 8). change 65536 with (2 ^ 16). rewrite H1, H2, H3, H4, H5, H6, H7. reflexivity.
Qed.

Ltac must_all := repeat match goal with E : must _ _ = Some _ |- _ => apply must_is in E; destruct E as (? & -> & ?) end.
Lemma de_packet_is : forall v p, de_packet v = Some p <-> packet_is v p.
Proof.
  intros v p. unfold de_packet, packet_is. split.
  - intro H. repeat some_of H. injection H as <-. cbn [p_header p_data p_offset]. must_all.
    match goal with E : struct _ _ = Some _ |- _ => apply struct_is in E; do 3 eexists; split; [exact E|] end. rewrite N2Nat.id.
    rewrite <- de_header_is, <- de_buf_is, <- de_usize_is. auto.
  - intros (a & b & c & R & H1 & H2 & H3). apply struct_is in R. rewrite R. cbn [must]. destruct p as [h d o]. cbn [p_header p_data p_offset] in *.
    apply de_header_is in H1. apply de_buf_is in H2. apply de_usize_is in H3. rewrite H1, H2, H3, Nat2N.id. reflexivity.
Qed.
Lemma de_group_is : forall v g, de_group v = Some g <-> group_is v g.
Proof.
  intros v g. unfold de_group, group_is. split.
  - intro H. repeat some_of H. injection H as <-. cbn [g_apid g_packets]. must_all.
    match goal with E : struct _ _ = Some _ |- _ => apply struct_is in E; do 2 eexists; split; [exact E|] end.
    match goal with E : de_u16 _ = _ |- _ => apply de_uint_is in E end. split; [assumption|].
    match goal with E : de_vec _ ?w = _ |- _ => destruct w; try discriminate E; cbn [de_vec] in E; apply (de_all_is _ _ _ de_packet_is) in E; eexists; split; [reflexivity|exact E] end.
  - intros (a & b & R & H1 & (vs & -> & H2)). apply struct_is in R. rewrite R. cbn [must de_vec]. destruct g as [n ps]. cbn [g_apid g_packets] in *.
    apply (de_uint_is (2 ^ 16)) in H1. apply (de_all_is _ _ _ de_packet_is) in H2. unfold de_u16. change 65536 with (2 ^ 16). rewrite H1, H2. reflexivity.
Qed.
Lemma de_integrity_is : forall v i, de_integrity v = Some i <-> integrity_is v i.
Proof.
  intros v i. unfold de_integrity, integrity_is.
  assert (NM : forall s i, integrity_of s = Some i <-> s = text (match i with IOk => "Ok" | ICorrected => "Corrected" | IUncorrectable => "Uncorrectable" | INotCorrected => "NotCorrected" | IFailed => "Failed" end)%string).
  { intros s j. unfold integrity_of.
    destruct (key_eqb_spec s (text "Ok")) as [->|D1]; [split; [intro E; injection E as <-; reflexivity|destruct j; (reflexivity || discriminate)]|].
    destruct (key_eqb_spec s (text "Corrected")) as [->|D2]; [split; [intro E; injection E as <-; reflexivity|destruct j; (reflexivity || discriminate)]|].
    destruct (key_eqb_spec s (text "Uncorrectable")) as [->|D3]; [split; [intro E; injection E as <-; reflexivity|destruct j; (reflexivity || discriminate)]|].
    destruct (key_eqb_spec s (text "NotCorrected")) as [->|D4]; [split; [intro E; injection E as <-; reflexivity|destruct j; (reflexivity || discriminate)]|].
    destruct (key_eqb_spec s (text "Failed")) as [->|D5]; [split; [intro E; injection E as <-; reflexivity|destruct j; (reflexivity || discriminate)]|].
    split; [discriminate|]. destruct j; contradiction. }
  cbv zeta. destruct v as [| | | |s|l|l]; try (split; [discriminate|intros [E|E]; discriminate]).
  - rewrite NM. split; [intros ->; left; reflexivity|]. intros [E|E]; [injection E as ->; reflexivity|discriminate].
  - destruct l as [|[k w] [|]]; try (split; [discriminate|intros [E|E]; discriminate]).
    + destruct w; try (split; [discriminate|intros [E|E]; discriminate]). rewrite NM.
      split; [intros ->; right; reflexivity|]. intros [E|E]; [discriminate|injection E as ->; reflexivity].
    + destruct w; split; try discriminate; intros [E|E]; discriminate.
Qed.
Lemma de_vcdu_is : forall v h, de_vcdu v = Some h <-> vcdu_is v h.
Proof.
  intros v h. unfold de_vcdu, vcdu_is. split.
  - intro H. repeat some_of H. injection H as <-. cbn [v_version v_scid v_vcid v_counter]. must_all.
    match goal with E : struct _ _ = Some _ |- _ => apply struct_is in E; do 4 eexists; split; [exact E|] end.
    repeat match goal with E : de_u8 _ = _ |- _ => apply de_uint_is in E | E : de_u16 _ = _ |- _ => apply de_uint_is in E | E : de_u32 _ = _ |- _ => apply de_uint_is in E end. auto.
  - intros (a & b & c & d & R & H1 & H2 & H3 & H4). apply struct_is in R. rewrite R. cbn [must]. destruct h as [h1 h2 h3 h4]. cbn [v_version v_scid v_vcid v_counter] in *.
    apply (de_uint_is (2 ^ 8)) in H1. apply (de_uint_is (2 ^ 16)) in H2, H3. apply (de_uint_is (2 ^ 32)) in H4.
    unfold de_u8, de_u16, de_u32. change 256 with (2 ^ 8). change 65536 with (2 ^ 16). change 4294967296 with (2 ^ 32). rewrite H1, H2, H3, H4. reflexivity.
Qed.
Lemma de_frame_is : forall v f, de_frame v = Some f <-> frame_is v f.
Proof.
  intros v f. unfold de_frame, frame_is. pose proof (de_option_is _ de_integrity integrity_is de_integrity_is eq_refl) as OI. split.
  - intro H. repeat some_of H. injection H as <-. cbn [f_header f_missing f_integrity f_data]. must_all.
    match goal with E : struct _ _ = Some _ |- _ => apply struct_is in E; do 4 eexists; split; [exact E|] end.
    repeat match goal with E : de_u32 _ = _ |- _ => apply de_uint_is in E end. rewrite <- de_vcdu_is, <- de_buf_is.
    split; [assumption|]. split; [assumption|]. split; [|assumption].
    match goal with E : may _ ?o = _ |- _ => destruct o; cbn [may] in E; [apply OI, E|injection E as <-; reflexivity] end.
  - intros (a & b & c & d & R & H1 & H2 & H3 & H4). apply struct_is in R. rewrite R. cbn [must]. destruct f as [h m i bs]. cbn [f_header f_missing f_integrity f_data] in *.
    apply de_vcdu_is in H1. apply (de_uint_is (2 ^ 32)) in H2. apply de_buf_is in H4. unfold de_u32. change 4294967296 with (2 ^ 32). rewrite H1, H2, H4.
    destruct c as [w|]; cbn [may]; [apply OI in H3; rewrite H3|subst i]; reflexivity.
Qed.
(* What is accepted as a packet, a group and a frame, and what it says. *)
Theorem C92_reads : forall v,
  (forall p, de_packet v = Some p <-> packet_is v p) /\ (forall g, de_group v = Some g <-> group_is v g) /\
  (forall f, de_frame v = Some f <-> frame_is v f).
Proof. intro v. split; [intro p; apply de_packet_is|]. split; [intro g; apply de_group_is|intro f; apply de_frame_is]. Qed.
Print Assumptions C92_reads.

(* ---- round trips ---- *)
Lemma de_num : forall b n, n < b -> de_uint b (ser_num n) = Some n.
Proof. intros b n H. apply de_uint_is. split; [reflexivity|exact H]. Qed.
Lemma de_ser_bytes : forall bs, Forall (fun b => b < 256) bs -> de_buf (ser_bytes bs) = Some bs.
Proof. intros bs H. apply de_buf_is. left. split; [reflexivity|exact H]. Qed.
Lemma struct2 : forall a b x y, text a <> text b -> struct [a; b] (VObj [(text a, x); (text b, y)]) = Some [Some x; Some y].
Proof.
  intros a b x y D. cbn [struct fields_of find_all].
  destruct (key_eqb_spec (text a) (text b)), (key_eqb_spec (text b) (text b)), (key_eqb_spec (text a) (text a)), (key_eqb_spec (text b) (text a)); congruence.
Qed.
Lemma de_ser_header : forall h, header_fits h -> de_header (ser_header h) = Some h.
Proof.
  intros [a b c d e f g] (H1 & H2 & H3 & H4 & H5 & H6). cbn [version type_flag apid sequence_flags sequence_id len_minus1] in *.
  unfold de_header, ser_header. cbn [version type_flag has_secondary_header apid sequence_flags sequence_id len_minus1].
  match goal with |- context [struct ?n (VObj ?l)] => replace (struct n (VObj l)) with (Some (map (fun kv => Some (snd kv)) l)) by reflexivity end.
  cbn [map snd must de_bool]. unfold de_u8, de_u16. rewrite !de_num by assumption. reflexivity.
Qed.
Lemma de_ser_packet : forall p, packet_fits p -> de_packet (ser_packet p) = Some p.
Proof.
  intros [h d o] (H1 & H2 & H3). cbn [p_header p_data p_offset] in *. unfold de_packet, ser_packet. cbn [p_header p_data p_offset].
  match goal with |- context [struct ?n (VObj ?l)] => replace (struct n (VObj l)) with (Some (map (fun kv => Some (snd kv)) l)) by reflexivity end.
  cbn [map snd must]. rewrite (de_ser_header h H1), (de_ser_bytes d H2). unfold de_usize. rewrite de_num by exact H3. rewrite Nat2N.id. reflexivity.
Qed.
Lemma de_all_map : forall A (de : jval -> option A) ser l, Forall (fun x => de (ser x) = Some x) l -> de_all de (map ser l) = Some l.
Proof. intros A de ser l H. induction H as [|x l E F IH]; cbn [map de_all]; [reflexivity|]. rewrite E, IH. reflexivity. Qed.
Lemma de_ser_group : forall g, group_fits g -> de_group (ser_group g) = Some g.
Proof.
  intros [a ps] (H1 & H2). cbn [g_apid g_packets] in *. unfold de_group, ser_group. cbn [g_apid g_packets].
  rewrite struct2 by discriminate. cbn [must de_vec]. unfold de_u16. rewrite de_num by exact H1. rewrite de_all_map; [reflexivity|].
  eapply Forall_impl; [|exact H2]. exact de_ser_packet.
Qed.
Lemma de_ser_frame : forall f, frame_fits f -> de_frame (ser_frame f) = Some f.
Proof.
  intros [[v s c n] m i d] (H1 & H2 & H3 & H4 & H5 & H6). cbn [f_header f_missing f_data v_version v_scid v_vcid v_counter] in *.
  unfold de_frame, ser_frame. cbn [f_header f_missing f_integrity f_data].
  match goal with |- context [struct ?n (VObj ?l)] => replace (struct n (VObj l)) with (Some (map (fun kv => Some (snd kv)) l)) by reflexivity end.
  cbn [map snd must may]. unfold de_u32. rewrite de_num by exact H5. rewrite (de_ser_bytes d H6).
  assert (HV : de_vcdu (ser_vcdu (mkVcdu v s c n)) = Some (mkVcdu v s c n)).
  { unfold de_vcdu, ser_vcdu. cbn [v_version v_scid v_vcid v_counter].
    match goal with |- context [struct ?n (VObj ?l)] => replace (struct n (VObj l)) with (Some (map (fun kv => Some (snd kv)) l)) by reflexivity end.
    cbn [map snd must]. unfold de_u8, de_u16, de_u32. rewrite !de_num by assumption. reflexivity. }
  rewrite HV. destruct i as [[]|]; reflexivity.
Qed.
Lemma dec_zero : forall n r, dec n = 48 :: r -> n = 0.
Proof.
  apply (dec_ind (fun n => forall r, dec n = 48 :: r -> n = 0)); intros n H.
  - intros r E. rewrite dec_small in E by exact H. assert (48 + n = 48) by congruence. lia.
  - intros IH r E. rewrite dec_step in E by exact H. destruct (dec (n / 10)) as [|c l] eqn:D; [destruct (dec_nonempty _ D)|].
    injection E as -> _. specialize (IH _ eq_refl). pose proof (N.div_mod n 10 ltac:(discriminate)). assert (n mod 10 < 10) by (apply N.mod_lt; discriminate). lia.
Qed.
Lemma dec_value : forall n, fold_left (fun a c => 10 * a + (c - 48)) (dec n) 0 = n.
Proof.
  apply dec_ind; intros n H.
  - rewrite dec_small by exact H. cbn [fold_left]. lia.
  - intro IH. rewrite dec_step by exact H. rewrite fold_left_app, IH. cbn [fold_left]. pose proof (N.div_mod n 10). lia.
Qed.
Lemma de_key_dec : forall n, n < 65536 -> de_key (dec n) = Some n.
Proof.
  intros n H. assert (V := dec_value n). assert (Z := dec_zero n). assert (D := dec_digits n).
  assert (F : forallb digit (dec n) = true) by (apply forallb_forall; apply Forall_forall; exact D).
  assert (L : (n <? 65536) = true) by (apply N.ltb_lt, H).
  destruct (N.eq_dec n 0) as [->|NZ]; [reflexivity|].
  assert (X : forall s, s = dec n -> s <> [] -> (forall r, s <> 48 :: r) ->
    de_key s = if forallb digit s then (let n := fold_left (fun a c => 10 * a + (c - 48)) s 0 in if n <? 65536 then Some n else None) else None).
  { intros s _ NE N48. destruct s as [|c s]; [contradiction|]. unfold de_key.
    destruct c as [|c]; [reflexivity|]. do 6 (destruct c as [c|c|]; try reflexivity). destruct (N48 s eq_refl). }
  rewrite (X (dec n) eq_refl (dec_nonempty n)) by (intros r E; exact (NZ (Z r E))). rewrite F. cbv zeta. rewrite V, L. reflexivity.
Qed.
Definition put {V} (m : amap V) (kv : N * V) : amap V := aset (fst kv) (snd kv) m.
Lemma de_entries_ser : forall V (de : jval -> option V) ser es m, Forall (fun kv => fst kv < 65536 /\ de (ser (snd kv)) = Some (snd kv)) es ->
  de_entries de (map (fun kv => (dec (fst kv), ser (snd kv))) es) m = Some (fold_left put es m).
Proof.
  intros V de ser es m H. revert m. induction H as [|[k v] es [K D] F IH]; intro m; cbn [map de_entries fold_left fst snd] in *; [reflexivity|].
  rewrite (de_key_dec k K), D. apply IH.
Qed.
Lemma aget_put : forall V (es m : amap V) k, NoDup (map fst es) ->
  aget k (fold_left put es m) = match aget k es with Some v => Some v | None => aget k m end.
Proof.
  induction es as [|[k' v] es IH]; intros m k ND; cbn [fold_left aget]; [reflexivity|]. cbn [map fst] in ND. inversion ND as [|? ? NI ND']; subst.
  rewrite IH by exact ND'. unfold put. cbn [fst snd]. rewrite aget_aset. destruct (N.eqb_spec k k') as [->|D]; [|reflexivity].
  apply aget_none in NI. rewrite NI. reflexivity.
Qed.
Lemma aget_perm : forall V (l l' : amap V) k, NoDup (map fst l) -> Permutation l l' -> aget k l' = aget k l.
Proof.
  intros V l l' k ND P. assert (ND' : NoDup (map fst l')) by (eapply Permutation_NoDup; [apply Permutation_map, P|exact ND]).
  destruct (aget k l) as [v|] eqn:E.
  - apply aget_nodup; [exact ND'|]. apply (Permutation_in _ P), aget_in, E.
  - apply aget_none. apply aget_none in E. intro I. apply E. apply (Permutation_in _ (Permutation_sym (Permutation_map fst P))), I.
Qed.
Lemma de_map_ser : forall V (de : jval -> option V) ser (m es : amap V), NoDup (map fst m) -> Permutation m es ->
  Forall (fun kv => fst kv < 65536 /\ de (ser (snd kv)) = Some (snd kv)) m ->
  exists m', de_map de (ser_map ser es) = Some m' /\ forall k, aget k m' = aget k m.
Proof.
  intros V de ser m es ND P F. exists (fold_left put es []). split.
  - unfold de_map, ser_map. apply de_entries_ser. eapply Permutation_Forall; eassumption.
  - intro k. rewrite aget_put by (eapply Permutation_NoDup; [apply Permutation_map, P|exact ND]). rewrite (aget_perm _ m es k ND P).
    destruct (aget k m); reflexivity.
Qed.

(* What a packet, a group or a frame can hold comes back unchanged. *)
Theorem C92_round_trip :
  (forall p, packet_fits p -> de_packet (ser_packet p) = Some p) /\ (forall g, group_fits g -> de_group (ser_group g) = Some g) /\
  (forall f, frame_fits f -> de_frame (ser_frame f) = Some f).
Proof. split; [exact de_ser_packet|]. split; [exact de_ser_group|exact de_ser_frame]. Qed.
Print Assumptions C92_round_trip.

Lemma header_ok_fits : forall h, header_ok h -> header_fits h.
Proof.
  intros h (V & T & A & F & Q & L). unfold header_fits. change (2 ^ 8) with 256. change (2 ^ 16) with 65536. lia.
Qed.
Lemma packets_at_fit : forall ws off, Forall wire_ok ws -> N.of_nat (off + List.length (concat (map wire_bytes ws))) < 2 ^ 64 ->
  Forall packet_fits (packets_at off ws).
Proof.
  intros ws off H. revert off. induction H as [|w ws W F IH]; intros off B; cbn [packets_at]; [constructor|].
  cbn [map concat] in B. rewrite app_length in B. constructor.
  - assert (WB := proj1 (wire_bytes_props w W)). split; [apply header_ok_fits, W|]. cbn [p_data p_offset]. split; [exact WB|lia].
  - apply IH. rewrite <- Nat.add_assoc. exact B.
Qed.
Lemma field_small : forall b o n m, n <= m -> field b o (N.to_nat n) < 2 ^ m.
Proof.
  intros b o n m H. eapply N.lt_le_trans; [apply field_bound|]. rewrite N2Nat.id. apply N.pow_le_mono_r; [discriminate|exact H].
Qed.
(* That is so for all that is decoded from bytes. *)
Theorem C92_decoded :
  (forall buf p, bytes_ok buf -> packet_decode buf = Val (Ok p) -> de_packet (ser_packet p) = Some p) /\
  (forall bs ws, file_holds bs ws -> N.of_nat (List.length bs) < 2 ^ 64 ->
     file_packets bs = Val (packets_at 0 ws) /\ Forall (fun p => de_packet (ser_packet p) = Some p) (packets_at 0 ws)) /\
  (forall dat f, bytes_ok dat -> frame_decode dat = Val (Some f) -> de_frame (ser_frame f) = Some f).
Proof.
  split; [|split].
  - intros buf p B D. apply de_ser_packet. assert (C := C02_packet_decode buf B). rewrite D in C. destruct C as (_ & _ & E1 & E2 & E3).
    split; [rewrite E2; apply header_ok_fits, spec_header_ok|]. rewrite E1, E3. split; [apply bytes_ok_firstn, B|reflexivity].
  - intros bs ws H L. split; [exact (file_packets_ok bs ws H)|]. destruct H as (W & _ & tail & E & _). 
    eapply Forall_impl; [exact de_ser_packet|]. apply packets_at_fit; [exact W|]. rewrite E, app_length in L. cbn [Nat.add]. lia.
  - intros dat f B D. apply de_ser_frame. unfold frame_decode in D. destruct (vcdu_decode dat) as [[h|]|] eqn:V; cbn [obind] in D; try discriminate D.
    injection D as <-. unfold frame_fits. cbn [f_header f_missing f_data].
    assert (NN := C31_vcdu_none_iff dat B). destruct (le_lt_dec 6 (List.length dat)) as [L|L];
      [|destruct NN as [_ NN]; rewrite (NN (or_introl L)) in V; discriminate V].
    destruct (C31_vcdu_header dat B L) as (V0 & V1 & _).
    assert (X : field dat 0 2 = 0 \/ field dat 0 2 = 1 \/ 2 <= field dat 0 2) by lia. destruct X as [X|[X|X]].
    + rewrite (V0 X) in V. injection V as <-. cbn [v_version v_scid v_vcid v_counter].
      split; [reflexivity|]. split; [apply (field_small dat 2 10); discriminate|]. split; [apply (field_small dat 12 3); discriminate|].
      split; [apply (field_small dat 16 16); discriminate|]. split; [reflexivity|exact B].
    + rewrite (V1 X) in V. injection V as <-. cbn [v_version v_scid v_vcid v_counter].
      split; [reflexivity|]. split; [apply (field_small dat 2 8); discriminate|]. split; [apply (field_small dat 10 6); discriminate|].
      split; [apply (field_small dat 16 24); discriminate|]. split; [reflexivity|exact B].
    + destruct NN as [_ NN]. rewrite (NN (or_intror X)) in V. discriminate V.
Qed.
Print Assumptions C92_decoded.

(* ---- summaries ---- *)
Definition tables_ok (s : summary) : Prop :=
  NoDup (map fst (s_apids s)) /\ NoDup (map fst (s_seen s)) /\ Forall (fun kv => fst kv < 65536) (s_apids s) /\
  Forall (fun kv => fst kv < 65536 /\ header_fits (snd kv)) (s_seen s).
Lemma summary_add_tables : forall ovf s p s', summary_add ovf s p = Val s' -> header_fits (p_header p) -> tables_ok s -> tables_ok s'.
Proof.
  intros ovf s p s' E H (N1 & N2 & F1 & F2). unfold summary_add in E. cbv zeta in E.
  match type of E with obind ?m _ = _ => destruct m as [n|]; cbn [obind] in E; [|discriminate E] end. injection E as <-.
  assert (A : apid (p_header p) < 65536) by (destruct H as (_ & _ & A & _); exact A).
  unfold tables_ok. cbn [s_apids s_seen]. split; [apply nodup_aset, N1|]. split; [apply nodup_aset, N2|]. rewrite !Forall_forall in *. split.
  - intros x I. apply in_aset in I. destruct I as [->|I]; [exact A|exact (F1 x I)].
  - intros x I. apply in_aset in I. destruct I as [->|I]; [exact (conj A H)|exact (F2 x I)].
Qed.
Lemma summary_all_tables : forall ovf ps s s', summary_add_all ovf s ps = Val s' -> Forall (fun p => header_fits (p_header p)) ps -> tables_ok s -> tables_ok s'.
Proof.
  induction ps as [|p ps IH]; intros s s' E H T; cbn [summary_add_all] in E; [injection E as <-; exact T|].
  inversion H as [|? ? H1 H2]; subst. destruct (summary_add ovf s p) as [t|] eqn:A; cbn [obind] in E; [|discriminate].
  exact (IH t s' E H2 (summary_add_tables _ _ _ _ A H1 T)).
Qed.
Definition same_summary (s s' : summary) : Prop := same_counts s s' /\ forall a, aget a (s_seen s) = aget a (s_seen s').
Lemma summary_add_same : forall ovf p s s', same_summary s s' ->
  match summary_add ovf s p, summary_add ovf s' p with Val t, Val t' => same_summary t t' | Panic, Panic => True | _, _ => False end.
Proof.
  intros ovf p s s' ((C & B & M & A) & S2). unfold summary_add. cbv zeta. rewrite <- C, <- B, <- M, <- (A (apid (p_header p))), <- (S2 (apid (p_header p))).
  match goal with |- context [obind ?m _] => destruct m as [n|]; cbn [obind]; [|exact I] end.
  split; [split; [reflexivity|split; [reflexivity|split; [reflexivity|]]]|]; intro a; cbn [s_apids s_seen]; rewrite !aget_aset; destruct (a =? apid (p_header p)); auto.
Qed.
Lemma summary_all_same : forall ovf ps s s', same_summary s s' ->
  match summary_add_all ovf s ps, summary_add_all ovf s' ps with Val t, Val t' => same_summary t t' | Panic, Panic => True | _, _ => False end.
Proof.
  induction ps as [|p ps IH]; intros s s' H; cbn [summary_add_all]; [exact H|]. assert (X := summary_add_same ovf p s s' H).
  destruct (summary_add ovf s p) as [t|], (summary_add ovf s' p) as [t'|]; cbn [obind]; try contradiction; [apply IH, X|exact I].
Qed.
Lemma de_ser_apid_summary : forall t, as_count t < 2 ^ 64 /\ as_bytes t < 2 ^ 64 /\ as_missing t < 2 ^ 64 -> de_apid_summary (ser_apid_summary t) = Some t.
Proof.
  intros [a b c] (H1 & H2 & H3). cbn [as_count as_bytes as_missing] in *. unfold de_apid_summary, ser_apid_summary. cbn [as_count as_bytes as_missing].
  match goal with |- context [struct ?n (VObj ?l)] => replace (struct n (VObj l)) with (Some (map (fun kv => Some (snd kv)) l)) by reflexivity end.
  cbn [map snd must]. unfold de_usize. rewrite !de_num by assumption. reflexivity.
Qed.
(* A summary that has been written, in whatever order its tables are, and read back has the same counts, and goes on counting as
   the one that was not. *)
Theorem C92_summary : forall ovf ps s apids seen, summary_add_all ovf summary0 ps = Val s ->
  Forall (fun p => header_fits (p_header p)) ps -> summary_fits s -> Permutation (s_apids s) apids -> Permutation (s_seen s) seen ->
  exists s', de_summary (ser_summary s apids seen) = Some s' /\ same_counts s s' /\
    forall more, match summary_add_all ovf s more, summary_add_all ovf s' more with
                 | Val t, Val t' => same_counts t t'
                 | Panic, Panic => True
                 | _, _ => False
                 end.
Proof.
  intros ovf ps s apids seen E H (B1 & B2 & B3 & B4) PA PS.
  assert (T : tables_ok s) by (apply (summary_all_tables ovf ps summary0 s E H); repeat split; constructor).
  destruct T as (N1 & N2 & F1 & F2).
  destruct (de_map_ser _ de_apid_summary ser_apid_summary (s_apids s) apids N1 PA) as (ma & DA & GA).
  { rewrite Forall_forall in *. intros [k v] I. split; [exact (F1 _ I)|]. cbn [snd]. apply de_ser_apid_summary, (B4 k), aget_nodup; assumption. }
  destruct (de_map_ser _ de_header ser_header (s_seen s) seen N2 PS) as (ms & DS & GS).
  { rewrite Forall_forall in *. intros [k v] I. destruct (F2 _ I) as [K Hf]. split; [exact K|]. apply de_ser_header, Hf. }
  exists (mkSummary (s_count s) (s_bytes s) (s_missing s) ma ms).
  assert (SS : same_summary s (mkSummary (s_count s) (s_bytes s) (s_missing s) ma ms)).
  { split; [|intro a; symmetry; apply GS]. repeat split. intro a. symmetry. apply GA. }
  split; [|split; [exact (proj1 SS)|]].
  - unfold de_summary, ser_summary.
    match goal with |- context [struct ?n (VObj ?l)] => replace (struct n (VObj l)) with (Some (map (fun kv => Some (snd kv)) l)) by reflexivity end.
    cbn [map snd must]. rewrite DA, DS. unfold de_usize. rewrite !de_num by assumption. reflexivity.
  - intro more. assert (X := summary_all_same ovf more s _ SS).
    destruct (summary_add_all ovf s more), (summary_add_all ovf _ more); try contradiction; [exact (proj1 X)|exact I].
Qed.
Print Assumptions C92_summary.

(* What is accepted as a summary, and what it says; the tables have no order, so that what is read is determined up to it. *)
Lemma fold_decimal : forall s a, fold_left (fun a c => 10 * a + (c - 48)) s a = a * 10 ^ N.of_nat (List.length s) + decimal s.
Proof.
  induction s as [|c s IH]; intro a; cbn [fold_left decimal List.length]; [cbn; lia|]. rewrite IH, Nat2N.inj_succ, N.pow_succ_r'. ring.
Qed.
Lemma all_digits : forall s, forallb digit s = true <-> Forall (fun c => 48 <= c <= 57) s.
Proof.
  intro s. rewrite forallb_forall, Forall_forall. unfold digit. split; intros H c I; specialize (H c I).
  - apply andb_prop in H. destruct H as [H1 H2]. apply N.leb_le in H1, H2. lia.
  - apply andb_true_intro. split; apply N.leb_le; lia.
Qed.
Lemma de_key_is : forall k n, de_key k = Some n <-> key_is k n.
Proof.
  intros k n. unfold key_is, digits.
  assert (G : forall c s, (c <> 48 \/ s = []) ->
    (if forallb digit (c :: s) then let n := fold_left (fun a c => 10 * a + (c - 48)) (c :: s) 0 in if n <? 65536 then Some n else None else None) = Some n
      <-> key_is (c :: s) n).
  { intros c s HC. unfold key_is, digits. cbv zeta. rewrite fold_decimal. destruct (forallb digit (c :: s)) eqn:F.
    - apply all_digits in F. replace (0 * 10 ^ N.of_nat (List.length (c :: s)) + decimal (c :: s)) with (decimal (c :: s)) by lia.
      destruct (N.ltb_spec (decimal (c :: s)) 65536) as [L|L].
      + split.
        * intro E. injection E as E. split; [split; [discriminate|exact F]|]. split; [exact E|]. split; [rewrite <- E; exact L|].
          destruct HC as [HC|HC]; [right; exact HC|]. subst s. destruct (N.eq_dec c 48) as [->|D]; [left; reflexivity|right; exact D].
        * intros (_ & <- & _). reflexivity.
      + split; [discriminate|]. intros (_ & <- & X & _). exfalso. change (2 ^ 16) with 65536 in X. lia.
    - split; [discriminate|]. intros ((_ & X) & _). apply all_digits in X. congruence. }
  destruct k as [|c s]; [split; [discriminate|]; intros ((X & _) & _); contradiction|].
  destruct (N.eq_dec c 48) as [->|D].
  - destruct s as [|d s]; [|split; [discriminate|]; intros (_ & _ & _ & [X|X]); [discriminate|cbn [hd] in X; contradiction]].
    cbn [de_key]. split.
    + intro E. injection E as <-. split; [split; [discriminate|repeat constructor; lia]|]. split; [reflexivity|]. split; [reflexivity|left; reflexivity].
    + intros (_ & <- & _). reflexivity.
  - rewrite <- (G c s (or_introl D)). unfold de_key.
    destruct c as [|p]; [reflexivity|]. do 6 (destruct p as [p|p|]; try reflexivity). contradiction.
Qed.
Lemma last_row_app : forall A (a b : list (N * A)) n m o, last_row a n (aget n m) ->
  last_row b n o -> last_row (a ++ b) n (match o with Some x => Some x | None => aget n m end).
Proof.
  intros A a b n m o H K. destruct o as [x|].
  - destruct K as (u & w & -> & NI). exists (a ++ u), w. rewrite app_assoc. auto.
  - cbn [last_row] in K. destruct (aget n m) as [x|].
    + destruct H as (u & w & -> & NI). exists u, (w ++ b). rewrite <- app_assoc. split; [reflexivity|]. rewrite map_app, in_app_iff. tauto.
    + cbn [last_row] in *. rewrite map_app, in_app_iff. tauto.
Qed.
Lemma last_row_fun : forall A (rows : list (N * A)) n o o', last_row rows n o -> last_row rows n o' -> o = o'.
Proof.
  assert (IN : forall A (b a : list (N * A)) n x, In n (map fst (b ++ (n, x) :: a))).
  { intros A b a n x. rewrite map_app, in_app_iff. right. left. reflexivity. }
  intros A rows n [x|] [y|] H K; cbn [last_row] in *; [| | |reflexivity].
  - destruct H as (b & a & -> & NA), K as (b' & a' & E & NA'). revert b' E. induction b as [|r b IH]; intros b' E.
    + destruct b' as [|r' b']; [injection E as -> ->; reflexivity|]. injection E as <- ->. exfalso. apply NA, IN.
    + destruct b' as [|r' b']; [injection E as E E2; exfalso; apply NA'; rewrite <- E2; apply IN|]. injection E as <- E. exact (IH b' E).
  - destruct H as (b & a & -> & _). exfalso. apply K, IN.
  - destruct K as (b & a & -> & _). exfalso. apply H, IN.
Qed.
Lemma de_entries_is : forall A (de : jval -> option A) is, (forall v x, de v = Some x <-> is v x) -> forall l m0 rows0,
  (forall n, last_row rows0 n (aget n m0)) ->
  (forall m, de_entries de l m0 = Some m -> exists rows, Forall2 (fun kv r => key_is (fst kv) (fst r) /\ is (snd kv) (snd r)) l rows /\
     forall n, last_row (rows0 ++ rows) n (aget n m)) /\
  (forall rows, Forall2 (fun kv r => key_is (fst kv) (fst r) /\ is (snd kv) (snd r)) l rows ->
     exists m, de_entries de l m0 = Some m /\ forall n, last_row (rows0 ++ rows) n (aget n m)).
Proof.
  intros A de is H. induction l as [|[k v] l IH]; intros m0 rows0 L0; cbn [de_entries].
  - split.
    + intros m E. injection E as <-. exists []. rewrite app_nil_r. split; [constructor|exact L0].
    + intros rows F. inversion F; subst. exists m0. rewrite app_nil_r. auto.
  - assert (ST : forall n x, forall q, last_row (rows0 ++ [(n, x)]) q (aget q (aset n x m0))).
    { intros n x q. rewrite aget_aset. destruct (N.eqb_spec q n) as [->|D].
      - exists rows0, []. split; [reflexivity|intros []].
      - apply (last_row_app A rows0 [(n, x)] q m0 None (L0 q)). intros [E|[]]. exact (D (eq_sym E)). }
    split.
    + intros m E. destruct (de_key k) as [n|] eqn:K; [|discriminate]. destruct (de v) as [x|] eqn:V; [|discriminate].
      destruct (proj1 (IH (aset n x m0) (rows0 ++ [(n, x)]) (ST n x)) m E) as (rows & F & G). exists ((n, x) :: rows). split.
      * constructor; [split; [apply de_key_is, K|apply H, V]|exact F].
      * intro q. specialize (G q). rewrite <- app_assoc in G. exact G.
    + intros rows F. inversion F as [|? [n x] ? rest [K V] F' E1 E2]; subst. cbn [fst snd] in K, V. apply de_key_is in K. apply H in V. rewrite K, V.
      destruct (proj2 (IH (aset n x m0) (rows0 ++ [(n, x)]) (ST n x)) rest F') as (m & E & G). exists m. split; [exact E|].
      intro q. specialize (G q). rewrite <- app_assoc in G. exact G.
Qed.
Lemma de_map_is : forall A (de : jval -> option A) is, (forall v x, de v = Some x <-> is v x) -> forall v,
  (forall m, de_map de v = Some m -> table_is is v m) /\
  (forall m, table_is is v m -> exists m', de_map de v = Some m' /\ forall n, aget n m = aget n m').
Proof.
  intros A de is H v. assert (L0 : forall n, last_row (@nil (N * A)) n (aget n [])) by (intros n []). split.
  - intros m E. destruct v as [| | | | |l|l]; try discriminate E. destruct (proj1 (de_entries_is A de is H l [] [] L0) m E) as (rows & F & G).
    exists l, rows. auto.
  - intros m (l & rows & -> & F & G). destruct (proj2 (de_entries_is A de is H l [] [] L0) rows F) as (m' & E & G'). exists m'. split; [exact E|].
    intro n. exact (last_row_fun A rows n _ _ (G n) (G' n)).
Qed.
Lemma de_apid_summary_is : forall v t, de_apid_summary v = Some t <-> apid_summary_is v t.
Proof.
  intros v t. unfold de_apid_summary, apid_summary_is. split.
  - intro H. repeat some_of H. injection H as <-. cbn [as_count as_bytes as_missing]. must_all.
    match goal with E : struct _ _ = Some _ |- _ => apply struct_is in E; do 3 eexists; split; [exact E|] end.
    rewrite <- !de_usize_is. auto.
  - intros (a & b & c & R & H1 & H2 & H3). apply struct_is in R. rewrite R. cbn [must]. destruct t as [x y z]. cbn [as_count as_bytes as_missing] in *.
    apply de_usize_is in H1, H2, H3. rewrite H1, H2, H3. reflexivity.
Qed.
Theorem C92_reads_summary : forall v,
  (forall s, de_summary v = Some s -> summary_is v s) /\
  (forall s, summary_is v s -> exists s', de_summary v = Some s' /\ same_counts s s' /\ forall a, aget a (s_seen s) = aget a (s_seen s')).
Proof.
  intro v. unfold de_summary, summary_is. split.
  - intros s H. repeat some_of H. injection H as <-. cbn [s_count s_bytes s_missing s_apids s_seen]. must_all.
    match goal with E : struct _ _ = Some _ |- _ => apply struct_is in E; do 5 eexists; split; [exact E|] end.
    repeat match goal with E : de_map de_apid_summary ?w = Some _ |- _ => apply (proj1 (de_map_is _ _ _ de_apid_summary_is w)) in E
                         | E : de_map de_header ?w = Some _ |- _ => apply (proj1 (de_map_is _ _ _ de_header_is w)) in E end.
    rewrite <- !de_usize_is. auto.
  - intros s (a & b & c & d & e & R & H1 & H2 & H3 & H4 & H5). apply struct_is in R. rewrite R. cbn [must].
    apply de_usize_is in H1, H2, H3. rewrite H1, H2, H3.
    destruct (proj2 (de_map_is _ _ _ de_apid_summary_is d) _ H4) as (ma & EA & GA).
    destruct (proj2 (de_map_is _ _ _ de_header_is e) _ H5) as (ms & ES & GS). rewrite EA, ES. eexists. split; [reflexivity|].
    split; [|exact GS]. repeat split. exact GA.
Qed.
Print Assumptions C92_reads_summary.

(* Nothing is checked beyond the shape: a group without packets, which the library itself never makes, can be read, and then
   have_missing panics; and a packet can be read whose header is not that of its bytes. *)
Theorem C92_unchecked_refuted : forall ovf,
  (exists v g, de_group v = Some g /\ have_missing ovf g = Panic) /\
  (exists v p, de_packet v = Some p /\ packet_decode (p_data p) <> Val (Ok (mkPacket (p_header p) (p_data p) 0))).
Proof.
  intro ovf. split.
  - exists (VObj [(text "apid", VInt 0); (text "packets", VArr [])]), (mkGroup 0 []). split; [reflexivity|apply C11_have_missing_empty].
  - exists (ser_packet (mkPacket (mkHeader 0 0 false 5 3 0 0) [] 0)), (mkPacket (mkHeader 0 0 false 5 3 0 0) [] 0).
    split; [reflexivity|]. cbn [p_data]. discriminate.
Qed.
Print Assumptions C92_unchecked_refuted.

(* the packet of the documentation of Summary: written, read back, counted, and the summary likewise *)
Definition doc_bytes : list N := [0xd; 0x59; 0xc0; 0x01; 0x0; 0x8; 0x52; 0xc0; 0x0; 0x0; 0x0; 0xa7; 0x0; 0xdb; 0xff].
Definition doc_packet : packet := mkPacket (mkHeader 0 0 true 1369 3 1 8) doc_bytes 0.
Example C92_ex_packet : packet_decode doc_bytes = Val (Ok doc_packet) /\ packet_fits doc_packet /\ de_packet (ser_packet doc_packet) = Some doc_packet.
Proof.
  split; [reflexivity|]. split; [|reflexivity]. split; [repeat split|]. split; [|reflexivity].
  unfold doc_packet, doc_bytes. cbn [p_data]. repeat constructor.
Qed.
Definition doc_next : packet := mkPacket (mkHeader 0 0 true 1369 3 4 8) doc_bytes 15.
Definition doc_other : packet := mkPacket (mkHeader 0 0 true 802 3 9 8) doc_bytes 30.
Example C92_ex_summary : forall ovf, exists s, summary_add_all ovf summary0 [doc_packet; doc_next; doc_other] = Val s /\ summary_fits s /\
  s_missing s = 2 /\ de_summary (ser_summary s (rev (s_apids s)) (s_seen s)) =
    Some (mkSummary 3 45 2 [(802, mkApidSummary 1 15 0); (1369, mkApidSummary 2 30 2)] (s_seen s)).
Proof.
  intros []; (eexists; split; [vm_compute; reflexivity|]; cbn [s_missing s_apids s_seen]; split; [|split; [reflexivity|vm_compute; reflexivity]]);
  (split; [reflexivity|]; split; [reflexivity|]; split; [reflexivity|]; cbn [s_apids aget];
   intros a t E; destruct (a =? 1369); [injection E as <-; repeat split|]; destruct (a =? 802); [injection E as <-; repeat split|discriminate]).
Qed.
Example C92_ex_frame :
  let f := mkFrame (mkVcdu 1 157 16 9854779) 3 (Some ICorrected) [0x67; 0x50; 0x96; 0x5f; 0x3b; 0x80; 0xff] in
  frame_fits f /\ de_frame (ser_frame f) = Some f /\
  de_frame (VArr [ser_vcdu (f_header f); ser_num 3; VObj [(text "Corrected", VNull)]; VArr (map ser_num (f_data f))]) = Some f /\
  de_frame (VObj [(text "data", ser_bytes (f_data f)); (text "missing", ser_num 3); (text "header", ser_vcdu (f_header f))]) =
    Some (mkFrame (f_header f) 3 None (f_data f)).
Proof. cbv zeta. split; [repeat split; repeat constructor|]. repeat split. Qed.
(* a summary with two members for the same apid, of which the last counts; a key with a leading zero is refused *)
Definition one (n : Z) : jval := VObj [(text "count", VInt n); (text "bytes", VInt 0); (text "missing", VInt 0)].
Definition sum_of (k1 k2 : string) : jval := VObj
  [(text "count", VInt 1); (text "bytes", VInt 0); (text "missing", VInt 0);
   (text "apids", VObj [(text k1, one 1); (text k2, one 2)]); (text "seen_headers", VObj [])].
Example C92_ex_summary_read :
  de_summary (sum_of "5" "5") = Some (mkSummary 1 0 0 [(5, mkApidSummary 2 0 0)] []) /\
  de_summary (sum_of "5" "05") = None /\ summary_is (sum_of "5" "5") (mkSummary 1 0 0 [(5, mkApidSummary 2 0 0)] []) /\
  forall s, ~ summary_is (sum_of "5" "05") s.
Proof.
  split; [vm_compute; reflexivity|]. split; [vm_compute; reflexivity|].
  split; [apply C92_reads_summary; vm_compute; reflexivity|]. intros s H. apply C92_reads_summary in H. destruct H as (s' & H & _).
  vm_compute in H. discriminate H.
Qed.
