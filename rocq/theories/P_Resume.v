(* Property C70: going on after the end, with a reader that delivers more later (a file that grows) *)
From Verif Require Import Base S_Resume S_Bits S_Packet M_Reader M_Packet L_Base L_Bits L_Reader L_Packet P_CliFilter.
Open Scope N_scope.


Lemma pdec_step : forall s o t, pd_ok s -> ptok_next (ptok_of s) = Val (o, t) -> exists s', pdec_next s = Val (o, s') /\ ptok_of s' = t /\ pd_ok s'.
Proof.
  intros s o t H E. assert (X := pdec_ptok s H). rewrite E in X. destruct (pdec_next s) as [[o' s']|] eqn:N; [|discriminate].
  cbn in X. injection X as <- <-. exists s'. split; [reflexivity|]. split; [reflexivity|]. eapply pd_ok_step; eassumption.
Qed.

(* One pass: the stream holds the packets ws, then an incomplete packet g (or nothing), then for the time being the
   end. The pass returns ws, with offsets that continue those of earlier passes; the bytes of g are dropped, and
   not counted; the next pass starts with what follows. *)
Theorem C70_one_pass : forall ws g rest s,
  transcript (evs (pd_reader s)) = map TByte (concat (map wire_bytes ws) ++ g) ++ TEof :: rest ->
  Forall wire_ok ws -> Forall (fun w => N.of_nat (length (wire_bytes w)) <= 65536) ws ->
  bytes_ok g -> incomplete g -> ((6 <= length g)%nat -> N.of_nat (wire_len g) <= 65536) ->
  Forall (fun t => match t with TByte b => b < 256 | _ => True end) rest ->
  exists s', drains pdec_next s (map Ok (packets_at (pd_offset s) ws)) s' /\
    transcript (evs (pd_reader s')) = rest /\ fin (pd_reader s') = fin (pd_reader s) /\
    pd_offset s' = (pd_offset s + length (concat (map wire_bytes ws)))%nat.
Proof.
  induction ws as [|w ws IH]; intros g rest s ET HW HL HB HI HG HR.
  - cbn [map concat app] in ET.
    assert (OK : pd_ok s). { unfold pd_ok. rewrite ET. apply tbytes_ok_app. split; [apply tbytes_ok_map; exact HB|]. constructor; [exact I|exact HR]. }
    destruct (pdec_step s None (mkPtok rest (fin (pd_reader s)) (pd_offset s)) OK) as (s' & N & P & _).
    { unfold ptok_of. rewrite ET. rewrite (ptok_incomplete g (TEof :: rest) (fin (pd_reader s)) (pd_offset s) UnexpectedEof rest); try assumption; try reflexivity.
      intro. apply max_len_spec. auto. }
    exists s'. split; [apply drains_end; exact N|]. unfold ptok_of in P. injection P as A B C. cbn [map concat length]. rewrite Nat.add_0_r. auto.
  - inversion HW as [|? ? W1 W2]; inversion HL as [|? ? L1 L2]; subst. cbn [map concat] in ET. rewrite <- !app_assoc, map_app, <- app_assoc in ET.
    destruct (wire_bytes_props w W1) as (Hb & L7 & LW & HH).
    assert (OK : pd_ok s).
    { unfold pd_ok. rewrite ET. apply tbytes_ok_app. split; [apply tbytes_ok_map; exact Hb|]. apply tbytes_ok_app. split; [|constructor; [exact I|exact HR]].
      apply tbytes_ok_map. apply bytes_ok_app. split; [apply concat_wire_ok; exact W2|exact HB]. }
    destruct (pdec_step s (Some (Ok (mkPacket (w_header w) (wire_bytes w) (pd_offset s))))
      (mkPtok (map TByte (concat (map wire_bytes ws) ++ g) ++ TEof :: rest) (fin (pd_reader s)) (pd_offset s + length (wire_bytes w))) OK) as (s1 & N & P & OK1).
    { unfold ptok_of. rewrite ET. rewrite ptok_packet; [rewrite HH; reflexivity|assumption|lia|lia|]. rewrite LW. apply max_len_spec. exact L1. }
    unfold ptok_of in P. injection P as A B C.
    destruct (IH g rest s1 A W2 L2 HB HI HG HR) as (s' & D & E1 & E2 & E3). exists s'. cbn [packets_at map]. split.
    + eapply drains_item; [exact N|]. rewrite C in D. exact D.
    + split; [exact E1|]. split; [congruence|]. rewrite E3, C. cbn [concat map]. rewrite app_length. symmetry. apply Nat.add_assoc.
Qed.
Print Assumptions C70_one_pass.

(* A file that grows by whole packets between the passes: every pass returns exactly the new packets, with their
   true offsets in the stream *)
Theorem C70_whole_packets : forall parts r,
  transcript (evs r) = grows parts -> Forall (Forall wire_ok) parts ->
  Forall (Forall (fun w => N.of_nat (length (wire_bytes w)) <= 65536)) parts ->
  passes pdec_next (pdec_new r) (map (map Ok) (parts_at 0 parts)) /\ concat (parts_at 0 parts) = packets_at 0 (concat parts).
Proof.
  intros parts r ET HW HL. split.
  - change 0%nat with (pd_offset (pdec_new r)). change r with (pd_reader (pdec_new r)) in ET. revert ET. generalize (pdec_new r) as s. clear r.
    revert HL. induction HW as [|ws parts W HW IH]; intros HL s ET; [exact I|]. apply Forall_cons_iff in HL. destruct HL as [L HL]. cbn [grows] in ET.
    destruct (C70_one_pass ws [] (grows parts) s) as (s' & D & E1 & E2 & E3); try assumption.
    + rewrite app_nil_r. exact ET.
    + constructor.
    + apply incomplete_nil.
    + cbn. lia.
    + clear -HW. induction HW as [|ws parts W _ IH]; cbn [grows]; [constructor|]. apply tbytes_ok_app. split; [apply tbytes_ok_map, concat_wire_ok; exact W|constructor; [exact I|exact IH]].
    + cbn [parts_at map passes]. exists s'. split; [exact D|]. rewrite <- E3. apply IH; assumption.
  - generalize 0%nat. clear. induction parts as [|ws parts IH]; intro off; [reflexivity|]. cbn [parts_at concat]. rewrite IH. revert off.
    induction ws as [|w ws IHw]; intro off; cbn [app packets_at concat map]; [rewrite Nat.add_0_r; reflexivity|]. f_equal.
    rewrite app_length, Nat.add_assoc. apply IHw.
Qed.
Print Assumptions C70_whole_packets.

(* A file that is read while a packet is half written: the bytes already there are lost. The next pass returns what a
   decoder returns that starts in the middle of that packet, with offsets that fall short of the true position. *)
Theorem C70_split_packet_refuted : forall ws w g g' more r r2,
  wire_bytes w = g ++ g' -> g' <> [] ->
  Forall wire_ok (w :: ws) -> Forall (fun w => N.of_nat (length (wire_bytes w)) <= 65536) (w :: ws) -> bytes_ok more ->
  transcript (evs r) = map TByte (concat (map wire_bytes ws) ++ g) ++ TEof :: map TByte (g' ++ more) ->
  transcript (evs r2) = map TByte (g' ++ more) -> fin r2 = fin r ->
  exists s', drains pdec_next (pdec_new r) (map Ok (packets_at 0 ws)) s' /\
    forall items, yields pdec_next s' items <-> yields pdec_next (mkPdec r2 (length (concat (map wire_bytes ws)))) items.
Proof.
  intros ws w g g' more r r2 EW NG HW HL HM ET ET2 EF.
  inversion HW as [|? ? W1 W2]; inversion HL as [|? ? L1 L2]; subst. destruct (wire_bytes_props w W1) as (Hb & L7 & LW & _).
  assert (Hb' := Hb). rewrite EW in Hb'. apply bytes_ok_app in Hb'. destruct Hb' as [Hg Hg'].
  assert (LG : (length g < length (wire_bytes w))%nat) by (rewrite EW, app_length; destruct g'; [contradiction|cbn; lia]).
  assert (WG : (6 <= length g)%nat -> wire_len g = length (wire_bytes w)) by (intro L; rewrite <- LW, EW, wire_len_app by exact L; reflexivity).
  destruct (C70_one_pass ws g (map TByte (g' ++ more)) (pdec_new r) ET W2 L2 Hg) as (s' & D & E1 & E2 & E3).
  - destruct (Nat.lt_ge_cases (length g) 6) as [L|L]; [left; exact L|right]. rewrite (WG L). exact LG.
  - intro L. rewrite (WG L). exact L1.
  - apply tbytes_ok_map. apply bytes_ok_app. split; assumption.
  - exists s'. split; [exact D|]. intro items.
    assert (O1 : pd_ok s') by (unfold pd_ok; rewrite E1; apply tbytes_ok_map, bytes_ok_app; split; assumption).
    assert (O2 : pd_ok (mkPdec r2 (length (concat (map wire_bytes ws))))) by (unfold pd_ok; cbn [pd_reader]; rewrite ET2; apply tbytes_ok_map, bytes_ok_app; split; assumption).
    rewrite (pdec_yields _ _ O1), (pdec_yields _ _ O2). unfold ptok_of. cbn [pd_reader pd_offset]. rewrite E1, ET2, E2, E3, EF. reflexivity.
Qed.
Print Assumptions C70_split_packet_refuted.

(* packets 7, 8 and 9; the file ends for a while in front of 8, or three bytes into 8 *)
Definition gx (a : N) : list N := wire_bytes (fl_wire a 1).
Definition gx_second (first second : list N) : option (list (option N)) :=
  match run pdec_next 9 (pdec_new (mkReader [EvData first; EvData []; EvData second] AtEof)) with
  | ([Ok p], Finished) =>
      match pdec_next (pdec_new (mkReader [EvData first; EvData []; EvData second] AtEof)) with
      | Val (_, s) => match pdec_next s with
                      | Val (None, s) => Some (map (fun r => match r with Ok p => Some (apid (p_header p)) | Err _ => None end) (fst (run pdec_next 9 s)))
                      | _ => None end
      | _ => None end
  | _ => None end.
Example C70_ex : gx_second (gx 7) (gx 8 ++ gx 9) = Some [Some 8; Some 9] /\
  gx_second (gx 7 ++ firstn 3 (gx 8)) (skipn 3 (gx 8) ++ gx 9) <> Some [Some 8; Some 9] /\
  exists l, gx_second (gx 7 ++ firstn 3 (gx 8)) (skipn 3 (gx 8) ++ gx 9) = Some l.
Proof. split; [vm_compute; reflexivity|]. split; [vm_compute; discriminate|eexists; vm_compute; reflexivity]. Qed.
