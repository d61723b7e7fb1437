(* Property C102: several paths for one file *)
From Coq Require Import Permutation Sorted.
From Verif Require Import Base S_Bits M_Reader M_Packet M_Group S_Packet S_Group M_Timecode L_Base L_Packet L_Group M_Merge S_Merge L_Merge P_Merge
  M_Cli S_Cli P_CliFilter M_Main S_Main P_Main P_LiveCmd S_Compose L_Compose P_Compose S_Diff P_CliDiff S_InfoTotals P_CliDiff2 S_Order P_Order
  M_Sync M_Pn M_Frame M_ReedSolomon M_RsPipeline M_Pipeline M_Live S_Live M_FrameLive L_FrameLive P_FrameLive M_Links S_Links.
Open Scope N_scope.

Lemma contents_put : forall d p c q, contents (put d p c) q = if d_place d q =? d_place d p then Some c else contents d q.
Proof. intros d p c q. unfold contents, put. cbn [d_place d_files]. rewrite aget_aset. reflexivity. Qed.
Lemma put_twice : forall d p c0 c, only_file_written d p c (put (put d p c0) p c).
Proof.
  intros d p c0 c. unfold only_file_written, same_file. split; [|split; [|reflexivity]].
  - intros q E. rewrite contents_put. cbn [d_place put]. rewrite E, N.eqb_refl. reflexivity.
  - intros q E. rewrite !contents_put. cbn [d_place put]. destruct (N.eqb_spec (d_place d q) (d_place d p)); [congruence|reflexivity].
Qed.
Lemma put_once : forall d p c, only_file_written d p c (put d p c).
Proof.
  intros d p c. unfold only_file_written, same_file. split; [|split; [|reflexivity]].
  - intros q E. rewrite contents_put. rewrite E, N.eqb_refl. reflexivity.
  - intros q E. rewrite !contents_put. destruct (N.eqb_spec (d_place d q) (d_place d p)); [congruence|reflexivity].
Qed.
Lemma put_check : forall d c o, may_put d c o -> negb c && exists_path d o = false.
Proof. intros d c o [->|H]; [reflexivity|]. unfold exists_path. rewrite H. apply andb_false_r. Qed.

(* ---- filter ---- *)
Definition filter_places (d : disk) (a : filter_args) : filter_args :=
  mkFilterArgs (fa_include a) (fa_exclude a) (fa_before a) (fa_after a) (fa_clobber a) (d_place d (fa_output a)) (d_place d (fa_input a)).
Lemma filter_is : forall creatable d a, filter_on_disk creatable d a =
  match filter_command (fun _ => creatable (fa_output a)) (d_files d) (filter_places d a) with Val (x, fs) => Val (x, mkDisk (d_place d) fs) | Panic => Panic end.
Proof.
  intros creatable d [i e b af c o p]. unfold filter_on_disk, filter_command, filter_places, exists_path, exists_file, contents, put.
  cbn [fa_include fa_exclude fa_before fa_after fa_clobber fa_output fa_input d_place d_files].
  replace (negb (is_none (aget (d_place d o) (d_files d)))) with (match aget (d_place d o) (d_files d) with Some _ => true | None => false end) by (destruct (aget _ _); reflexivity).
  destruct d as [pl fs]. cbn [d_place d_files]. destruct (_ && _); [reflexivity|]. destruct (aget (pl p) fs); [|reflexivity]. destruct (negb (creatable o)); [reflexivity|].
  destruct (filter_main _ i e b af) as [[out|]|]; reflexivity.
Qed.
Lemma written_lift : forall d p c fs', only_written (d_files d) (d_place d p) c fs' -> only_file_written d p c (mkDisk (d_place d) fs').
Proof.
  intros d p c fs' [A B]. split; [|split; [|reflexivity]]; unfold same_file, contents; cbn [d_place d_files].
  - intros q <-. exact A.
  - intros q NE. apply B. congruence.
Qed.
(* What filter writes, when input and output are different files *)
Theorem C102_filter_apids : forall creatable d a bs ws include exclude,
  may_put d (fa_clobber a) (fa_output a) -> creatable (fa_output a) = true -> ~ same_file d (fa_input a) (fa_output a) ->
  contents d (fa_input a) = Some bs -> file_holds bs ws ->
  stands_for (fa_include a) include -> stands_for (fa_exclude a) exclude ->
  (exists v, In v (include ++ exclude) /\ v < 65536) -> fa_before a = None -> fa_after a = None ->
  exists kps d', kept (fun w => accepted include exclude (apid (w_header w))) ws kps /\
    filter_on_disk creatable d a = Val (Success, d') /\ only_file_written d (fa_output a) (concat (map wire_bytes kps)) d'.
Proof.
  intros creatable d a bs ws include exclude MP CR NS GI FH SI SE EX B A.
  destruct (C56_filter_command_apids (fun _ => creatable (fa_output a)) (d_files d) (filter_places d a) bs ws include exclude) as (kps & fs' & K & E & W); try assumption.
  exists kps, (mkDisk (d_place d) fs'). split; [exact K|]. split; [rewrite filter_is, E; reflexivity|]. apply written_lift. exact W.
Qed.
Print Assumptions C102_filter_apids.
Theorem C102_filter_times : forall creatable d a bs ws gs include exclude,
  may_put d (fa_clobber a) (fa_output a) -> creatable (fa_output a) = true -> ~ same_file d (fa_input a) (fa_output a) ->
  contents d (fa_input a) = Some bs -> file_holds bs ws -> grouping (packets_at 0 ws) gs ->
  stands_for (fa_include a) include -> stands_for (fa_exclude a) exclude -> fa_before a <> None \/ fa_after a <> None ->
  exists kps d', kept (fun g => timely (fa_before a) (fa_after a) g /\ accepted include exclude (g_apid g)) gs kps /\
    filter_on_disk creatable d a = Val (Success, d') /\ only_file_written d (fa_output a) (concat (map group_bytes kps)) d'.
Proof.
  intros creatable d a bs ws gs include exclude MP CR NS GI FH GR SI SE T.
  destruct (C56_filter_command_times (fun _ => creatable (fa_output a)) (d_files d) (filter_places d a) bs ws gs include exclude) as (kps & fs' & K & E & W); try assumption.
  exists kps, (mkDisk (d_place d) fs'). split; [exact K|]. split; [rewrite filter_is, E; reflexivity|]. apply written_lift. exact W.
Qed.
Print Assumptions C102_filter_times.
(* Comparing the paths would not do: under another path too a file is emptied before it is read, and the command reports
   success *)
Theorem C102_filter_onto_link_refuted : forall creatable d a bs include exclude,
  fa_clobber a = true -> creatable (fa_output a) = true -> same_file d (fa_input a) (fa_output a) -> contents d (fa_input a) = Some bs ->
  stands_for (fa_include a) include -> stands_for (fa_exclude a) exclude ->
  (exists v, In v (include ++ exclude) /\ v < 65536) \/ fa_before a <> None \/ fa_after a <> None ->
  exists d', filter_on_disk creatable d a = Val (Success, d') /\ only_file_written d (fa_output a) [] d'.
Proof.
  intros creatable d a bs include exclude CL CR SF GI SI SE T.
  destruct (C57_filter_onto_itself_refuted (fun _ => creatable (fa_output a)) (d_files d) (filter_places d a) bs include exclude) as (fs' & E & W); try assumption.
  exists (mkDisk (d_place d) fs'). split; [rewrite filter_is, E; reflexivity|]. apply written_lift. exact W.
Qed.
Print Assumptions C102_filter_onto_link_refuted.

(* ---- merge ---- *)
Definition merger_for (a : merge_args) (order : list N) : merger := with_apid_order
  (mkMerger (ma_inputs a) cds_time [] (option_map to_micros (ma_from a)) (option_map to_micros (ma_to a)) (Some (ma_apids a))) order.
Lemma merger_for_is : forall a order, merger_of_args a order = merger_for a order.
Proof. intros a order. unfold merger_for, merger_of_args, merger_new, with_apids, with_apid_order. destruct (ma_from a), (ma_to a); reflexivity. Qed.
(* each of the inputs is the output, and so empty by the time it is read, or holds the packets ws *)
Definition inputs_hold (d : disk) (a : merge_args) (ws : N -> list wire_packet) : Prop :=
  forall p, In p (ma_inputs a) -> same_file d p (ma_output a) /\ ws p = [] \/ ~ same_file d p (ma_output a) /\ exists bs, contents d p = Some bs /\ file_holds bs (ws p).
Lemma inputs_readable : forall d a ws m, inputs_hold d a ws -> mg_paths m = ma_inputs a -> readable (contents (put d (ma_output a) [])) m ws.
Proof.
  intros d a ws m HI MP p I. rewrite MP in I. destruct (HI p I) as [[SF E]|(N & bs & E & F)].
  - exists []. rewrite contents_put, SF, N.eqb_refl, E. split; [reflexivity|]. split; [constructor|]. split; [constructor|]. exists []. split; [reflexivity|].
    split; [constructor|]. split; [apply incomplete_nil|cbn; lia].
  - exists bs. rewrite contents_put. destruct (N.eqb_spec (d_place d p) (d_place d (ma_output a))); [contradiction|]. auto.
Qed.
Lemma merge_disk_ok : forall h creatable d a order out, may_put d (ma_clobber a) (ma_output a) -> creatable (ma_output a) = true -> ma_inputs a <> [] -> asks_order a order ->
  merge h (contents (put d (ma_output a) [])) (merger_for a order) = Val (Ok out) ->
  merge_on_disk h creatable d a = Val (Success, put (put d (ma_output a) []) (ma_output a) out).
Proof.
  intros h creatable d a order out MP CR NI AO E. unfold merge_on_disk. rewrite (put_check _ _ _ MP), (asks_order_eq a order AO), CR. cbn [negb].
  replace (is_nil (ma_inputs a)) with false by (destruct (ma_inputs a); [contradiction|reflexivity]). cbv zeta. rewrite merger_for_is, E. cbn [obind].
  rewrite (merge_written_ok _ _ _ _ E). reflexivity.
Qed.
(* What merge writes: C57 *)
Theorem C102_merge : forall h creatable d a order ws, hash_ok h ->
  may_put d (ma_clobber a) (ma_output a) -> creatable (ma_output a) = true -> ma_inputs a <> [] -> asks_order a order -> inputs_hold d a ws ->
  let m := merger_for a order in
  exists sel d', merge_on_disk h creatable d a = Val (Success, d') /\
    only_file_written d (ma_output a) (concat (map group_bytes sel)) d' /\ selection m ws sel /\
    forall x y tx ty ax ay sx sy ox oy, before sel x y ->
      gkey m x = Some (tx, ax, sx) -> gkey m y = Some (ty, ay, sy) ->
      order_value order ax ox -> order_value order ay oy -> (tx < ty \/ tx = ty /\ ox <= oy)%Z.
Proof.
  intros h creatable d a order ws HH MP CR NI AO HI m.
  destruct (C19_merge_sorted h (contents (put d (ma_output a) [])) (mkMerger (ma_inputs a) cds_time [] (option_map to_micros (ma_from a)) (option_map to_micros (ma_to a)) (Some (ma_apids a))) order ws eq_refl HH)
    as (sel & E & SL & BO); [apply inputs_readable; [exact HI|reflexivity]|].
  exists sel, (put (put d (ma_output a) []) (ma_output a) (concat (map group_bytes sel))).
  split; [eapply merge_disk_ok; eassumption|]. split; [apply put_twice|]. split; [exact SL|exact BO].
Qed.
Print Assumptions C102_merge.
(* A file given under several paths counts once: the files matter, not the paths, nor their order *)
Theorem C102_merge_files : forall h h' creatable d a b order ws, hash_ok h -> hash_ok h' ->
  may_put d (ma_clobber a) (ma_output a) -> creatable (ma_output a) = true -> ma_inputs a <> [] -> asks_order a order -> inputs_hold d a ws ->
  (forall p q, same_file d p q -> ws p = ws q) -> no_ties (merger_for a order) ws -> same_files d (ma_inputs a) (ma_inputs b) ->
  ma_apids b = ma_apids a -> ma_apid_order b = ma_apid_order a -> ma_apid_order_name b = ma_apid_order_name a -> ma_from b = ma_from a -> ma_to b = ma_to a ->
  ma_clobber b = ma_clobber a -> ma_output b = ma_output a ->
  merge_on_disk h' creatable d b = merge_on_disk h creatable d a.
Proof.
  intros h h' creatable d a b order ws H H' MP CR NI AO HI WS NT [SF SB] E0 E1 E2 E3 E4 E5 E6.
  set (m := merger_for a order) in *. set (fs := contents (put d (ma_output a) [])).
  assert (R : readable fs m ws) by (apply inputs_readable; [exact HI|reflexivity]).
  assert (MB : merger_for b order = on_paths m (ma_inputs b)) by (unfold m, merger_for, with_apid_order, on_paths; rewrite E0, E3, E4; reflexivity).
  assert (FS : forall p q, same_file d p q -> fs p = fs q) by (intros p q X; unfold fs; rewrite !contents_put; unfold contents; rewrite X; reflexivity).
  assert (MA : m = on_paths m (ma_inputs a)) by reflexivity.
  destruct (main_sorted h fs m ws H R NT) as (sel & E & EL & CA & ST).
  assert (EB : merge h' fs (merger_for b order) = Val (Ok (concat (map group_bytes sel)))).
  { rewrite MB. apply merge_unique with (ws := ws).
    - exact H'.
    - intros p I. cbn [mg_paths on_paths] in I. destruct (SB p I) as (q & J & X). destruct (R q J) as (bs & F & FH). exists bs. rewrite <- (FS q p X), <- (WS q p X). auto.
    - intros g G. apply CA. apply eligible_fit in G. destruct G as (p & gs & f & rest & I & G & IG & EG & FT). cbn [mg_paths on_paths] in I.
      destruct (SB p I) as (q & J & X). apply eligible_fit. exists q, gs, f, rest. rewrite (WS q p X). split; [exact J|]. auto.
    - intros g I. exists g. split; [|reflexivity]. rewrite Forall_forall in EL. assert (G := EL g I). apply eligible_fit in G. destruct G as (p & gs & f & rest & IP & G & IG & EG & FT).
      destruct (SF p IP) as (q & J & X). apply eligible_fit. exists q, gs, f, rest. rewrite <- (WS p q X). split; [exact J|]. auto.
    - exact ST. }
  rewrite (merge_disk_ok h creatable d a order _ MP CR NI AO E).
  rewrite <- E6. apply (merge_disk_ok h' creatable d b order).
  - rewrite E5, E6. exact MP.
  - rewrite E6. exact CR.
  - intro C. destruct (ma_inputs a) as [|p l]; [contradiction|]. destruct (SF p (or_introl eq_refl)) as (q & J & _). rewrite C in J. destruct J.
  - unfold asks_order in *. rewrite E1, E2. exact AO.
  - rewrite E6. exact EB.
Qed.
Print Assumptions C102_merge_files.
(* Merging onto one of the inputs, under another path: its packets are gone *)
Theorem C102_merge_onto_link_refuted : forall h creatable d a order bs p, hash_ok h ->
  ma_clobber a = true -> creatable (ma_output a) = true -> asks_order a order ->
  ma_inputs a = [p] -> same_file d p (ma_output a) -> contents d p = Some bs ->
  exists d', merge_on_disk h creatable d a = Val (Success, d') /\ only_file_written d (ma_output a) [] d'.
Proof.
  intros h creatable d a order bs p HH CL CR AO EI SF GI.
  destruct (C102_merge h creatable d a order (fun _ => []) HH) as (sel & d' & E & W & (EL & _) & _); try assumption.
  - left. exact CL.
  - rewrite EI. discriminate.
  - intros q I. rewrite EI in I. destruct I as [<-|[]]. left. auto.
  - exists d'. split; [exact E|]. destruct sel as [|g sel]; [exact W|]. inversion EL as [|? ? X _]; subst. apply eligible_fit in X. destruct X as (q & gs & f & rest & _ & G & I & _). cbn in G. inversion G; subst. destruct I.
Qed.
Print Assumptions C102_merge_onto_link_refuted.

(* ---- reading only ---- *)
(* A file compared with itself under another path: no differences. *)
Theorem C102_diff_same_file : forall csum d verbose p q bs ws, same_file d p q -> contents d p = Some bs -> file_holds bs ws -> ws <> [] ->
  diff_on_disk csum d verbose p q = Val (Some (Some (if verbose then Some [] else None, []), DiffOk)).
Proof. intros csum d verbose p q bs ws SF G F NE. unfold diff_on_disk. rewrite <- SF. eapply C69_diff_same_file; eassumption. Qed.
Print Assumptions C102_diff_same_file.
(* What is reported on a file does not depend on the path by which it is named. *)
Theorem C102_info_same_file : forall ovf csum d p q cds verbose r, same_file d p q -> info_on_disk ovf d p cds = info_on_disk ovf d q cds /\
  diff_on_disk csum d verbose p r = diff_on_disk csum d verbose q r /\ diff_on_disk csum d verbose r p = diff_on_disk csum d verbose r q.
Proof. intros ovf csum d p q cds verbose r SF. unfold info_on_disk, diff_on_disk. rewrite SF. auto. Qed.
Print Assumptions C102_info_same_file.

(* ---- whatever happens ---- *)
(* no file but the output changes, and no path leads elsewhere afterwards *)
Theorem C102_only_the_output : forall h creatable d ma fa x d' q,
  (merge_on_disk h creatable d ma = Val (x, d') -> d_place d' q = d_place d q /\ (~ same_file d q (ma_output ma) -> contents d' q = contents d q)) /\
  (filter_on_disk creatable d fa = Val (x, d') -> d_place d' q = d_place d q /\ (~ same_file d q (fa_output fa) -> contents d' q = contents d q)).
Proof.
  assert (P1 : forall d p c q, ~ same_file d q p -> contents (put d p c) q = contents d q).
  { intros d p c q NS. rewrite contents_put. destruct (N.eqb_spec (d_place d q) (d_place d p)); [contradiction|reflexivity]. }
  assert (P2 : forall d p c c' q, ~ same_file d q p -> contents (put (put d p c) p c') q = contents d q).
  { intros d p c c' q NS. rewrite (P1 (put d p c)) by exact NS. apply P1. exact NS. }
  intros h creatable d ma fa x d' q. split; intro E.
  - unfold merge_on_disk in E. destruct (_ && _); [injection E as _ <-; auto|]. destruct (match ma_apid_order_name ma with Some _ => _ | None => _ end); [|injection E as _ <-; auto].
    destruct (negb _); [injection E as _ <-; auto|]. destruct (is_nil _); [injection E as _ <-; split; [reflexivity|apply P1]|].
    destruct (merge _ _ _) as [r|]; [|discriminate]. cbn [obind] in E. destruct (merge_written _ _ _) as [w|]; [|discriminate]. cbn [obind] in E. injection E as _ <-. split; [reflexivity|apply P2].
  - unfold filter_on_disk in E. destruct (_ && _); [injection E as _ <-; auto|]. destruct (contents d (fa_input fa)); [|injection E as _ <-; auto].
    destruct (negb _); [injection E as _ <-; auto|]. cbv zeta in E. destruct (filter_main _ _ _ _ _) as [[o|]|]; [| |discriminate]; cbn [obind] in E; injection E as _ <-; (split; [reflexivity|]); [apply P2|apply P1].
Qed.
Print Assumptions C102_only_the_output.
(* without --clobber a path that leads to a file is refused, whatever kind of path it is; one that leads nowhere (a broken
   link) is not, and the file is made where it leads *)
Theorem C102_no_clobber : forall h creatable d ma fa,
  (ma_clobber ma = false -> contents d (ma_output ma) <> None -> merge_on_disk h creatable d ma = Val (Failure, d)) /\
  (fa_clobber fa = false -> contents d (fa_output fa) <> None -> filter_on_disk creatable d fa = Val (Failure, d)).
Proof.
  intros h creatable d ma fa. unfold merge_on_disk, filter_on_disk, exists_path.
  split; intros -> NE; (destruct (contents d _); [reflexivity|destruct (NE eq_refl)]).
Qed.
Print Assumptions C102_no_clobber.

(* A path that leads to no file (a broken link): filter changes nothing, diff and info have no result; merge fails, and leaves
   an empty output, even over what was there *)
Theorem C102_no_file : forall h creatable ovf csum d ma fa order p q verbose cds, contents d p = None ->
  (fa_input fa = p -> filter_on_disk creatable d fa = Val (Failure, d)) /\
  (may_put d (ma_clobber ma) (ma_output ma) -> creatable (ma_output ma) = true -> asks_order ma order -> In p (ma_inputs ma) -> ~ same_file d p (ma_output ma) ->
   exists d', merge_on_disk h creatable d ma = Val (Failure, d') /\ only_file_written d (ma_output ma) [] d') /\
  diff_on_disk csum d verbose p q = Val None /\ info_on_disk ovf d p cds = Val None.
Proof.
  intros h creatable ovf csum d ma fa order p q verbose cds NF. split; [|split; [|split]].
  - intro E. unfold filter_on_disk. rewrite E, NF. destruct (_ && _); reflexivity.
  - intros MP CR AO I NS. unfold merge_on_disk. rewrite (put_check _ _ _ MP), (asks_order_eq ma order AO), CR. cbn [negb].
    replace (is_nil (ma_inputs ma)) with false by (destruct (ma_inputs ma); [destruct I|reflexivity]). cbv zeta. rewrite merger_for_is.
    assert (X : exists p, In p (mg_paths (merger_for ma order)) /\ contents (put d (ma_output ma) []) p = None).
    { exists p. split; [exact I|]. rewrite contents_put. destruct (N.eqb_spec (d_place d p) (d_place d (ma_output ma))); [contradiction|exact NF]. }
    destruct (C18_unreadable h _ _ X) as [k MK]. rewrite MK. cbn [obind]. unfold merge_written.
    destruct (open_readers_err _ _ [] X) as [k' OE]. rewrite OE. cbn [obind]. eexists. split; [reflexivity|]. apply put_twice.
  - unfold diff_on_disk, diff_command. unfold contents in NF. rewrite NF. reflexivity.
  - unfold info_on_disk, info_command. unfold contents in NF. rewrite NF. reflexivity.
Qed.
Print Assumptions C102_no_file.

(* ---- framing, without Reed-Solomon ---- *)
(* the output leads to the input's file: it is lost, and the command reports success *)
Theorem C102_framing_onto_link_refuted : forall ovf creatable d a len p i e bs o,
  framing_setup a = Some (len, p, i, e) -> pl_rs p = None -> fr_output a = Some o -> creatable o = true ->
  same_file d (fr_input a) o -> contents d (fr_input a) = Some bs ->
  eventually (framing_command_live ovf creatable (framing_input d a) a) (Exited Success, Some [], Some (finfo0, [])).
Proof.
  intros ovf creatable d a len p i e bs o HS NR EO CR SF GI.
  assert (RI : framing_input d a = Some (reader_of [])).
  { unfold framing_input. rewrite EO, contents_put, SF, N.eqb_refl. reflexivity. }
  rewrite RI. set (a' := mkFramingArgs (fr_config a) (fr_length a) (fr_pn a) (fr_keep_fill a) (fr_rs a) (fr_rs_detect a) (fr_rs_correct a) (fr_rs_virtualfill a)
    (fr_rs_threads a) (fr_rs_buffersize a) (fr_include a) (fr_exclude a) (fr_output a) o).
  assert (X := C81_output_over_input_refuted ovf creatable [(o, bs)] a' len p i e bs HS NR EO CR). cbn [aget fr_input a'] in X. rewrite N.eqb_refl in X. specialize (X eq_refl).
  destruct X as [n0 X]. exists n0. intros n L. specialize (X n L). rewrite <- X.
  replace (input_after_create [(o, bs)] a') with (Some (reader_of [])); [reflexivity|].
  unfold input_after_create. cbn [fr_output fr_input a']. rewrite EO, aget_aset, N.eqb_refl. reflexivity.
Qed.
Print Assumptions C102_framing_onto_link_refuted.

(* ---- the hypotheses can be met ---- *)
(* paths 1, 11, 21, ... lead to the file 1, and so on; 3, 13, ... lead to a place without a file *)
Definition lk_disk : disk := mkDisk (fun p => p mod 10) [(0, concat (map wire_bytes (st_ws 0))); (1, concat (map wire_bytes (st_ws 1)))].
Definition lk_ws (p : N) : list wire_packet := st_ws (p mod 10).
Lemma lk_file : forall p, p mod 10 = 0 \/ p mod 10 = 1 -> exists bs, contents lk_disk p = Some bs /\ file_holds bs (lk_ws p).
Proof.
  intros p [E|E]; unfold contents, lk_ws; cbn [d_place d_files lk_disk]; rewrite E; eexists; (split; [reflexivity|]);
    (apply wires_file; [repeat constructor|repeat constructor; vm_compute; discriminate]).
Qed.
Definition lk_merge (clobber : bool) (output : N) (inputs : list N) : merge_args := mkMergeArgs None None None None [] clobber output inputs.
Lemma lk_hold : forall c inputs, (forall p, In p inputs -> p mod 10 = 0 \/ p mod 10 = 1) -> inputs_hold lk_disk (lk_merge c 13 inputs) lk_ws.
Proof.
  intros c inputs H p I. right. specialize (H p I). split; [|apply lk_file, H]. unfold same_file. cbn [d_place lk_disk ma_output lk_merge].
  destruct H as [-> | ->]; discriminate.
Qed.
Lemma lk_no_ties : forall c, no_ties (merger_for (lk_merge c 13 [0; 1]) []) lk_ws.
Proof.
  intros c g g' t a s a' s' (p & gs & f & rest & tt & I & G & J) (p' & gs' & f' & rest' & tt' & I' & G' & J') K K'.
  apply (st_no_ties [0; 1] g g' t a s a' s'); try assumption.
  - exists p, gs, f, rest, tt. split; [exact I|]. split; [destruct I as [<-|[<-|[]]]; exact G|exact J].
  - exists p', gs', f', rest', tt'. split; [exact I'|]. split; [destruct I' as [<-|[<-|[]]]; exact G'|exact J'].
Qed.
(* the same two files under three paths, in another order: the output is the same; it is made at 3, where 13 leads *)
Example C102_merge_files_ex : exists d', merge_on_disk reversed (fun _ => true) lk_disk (lk_merge false 13 [11; 10; 21]) = Val (Success, d') /\
  merge_on_disk in_order (fun _ => true) lk_disk (lk_merge false 13 [0; 1]) = Val (Success, d') /\ contents d' 13 = Some P_Compose.st_out /\ contents d' 23 = Some P_Compose.st_out /\
  contents d' 21 = contents lk_disk 1.
Proof.
  eexists. split; [|split; [vm_compute; reflexivity|repeat split; vm_compute; reflexivity]].
  rewrite (C102_merge_files in_order reversed (fun _ => true) lk_disk (lk_merge false 13 [0; 1]) (lk_merge false 13 [11; 10; 21]) [] lk_ws in_order_ok reversed_ok);
    try reflexivity; try discriminate.
  - right. reflexivity.
  - apply lk_hold. intros p [<-|[<-|[]]]; [left|right]; reflexivity.
  - intros p q E. unfold lk_ws. unfold same_file in E. cbn [d_place lk_disk] in E. rewrite E. reflexivity.
  - apply lk_no_ties.
  - unfold same_files, same_file. cbn [d_place lk_disk ma_inputs lk_merge]. split; intros p I.
    + destruct I as [<-|[<-|[]]]; [exists 10|exists 11]; (split; [cbn [In]; tauto|reflexivity]).
    + destruct I as [<-|[<-|[<-|[]]]]; [exists 1|exists 0|exists 1]; (split; [cbn [In]; tauto|reflexivity]).
Qed.
Example C102_merge_ex : exists sel d', merge_on_disk reversed (fun _ => true) lk_disk (lk_merge true 13 [11; 0]) = Val (Success, d') /\
  only_file_written lk_disk 13 (concat (map group_bytes sel)) d' /\ length sel = 3%nat.
Proof.
  destruct (C102_merge reversed (fun _ => true) lk_disk (lk_merge true 13 [11; 0]) [] lk_ws reversed_ok) as (sel & d' & E & W & (EL & _) & _);
    try reflexivity; try discriminate.
  - left. reflexivity.
  - apply lk_hold. intros p [<-|[<-|[]]]; [right|left]; reflexivity.
  - do 2 eexists. split; [vm_compute; reflexivity|]. split.
    + instantiate (1 := fst (run giter_next 9%nat (giter_new (packets_at 0 [mg_wire 900 1 9 21999 [3]; mg_wire 900 2 10 21999 [4]; mg_wire 821 3 7 22000 [1]; mg_wire 826 3 4 22000 [2]])))).
      match goal with |- only_file_written _ _ ?c (mkDisk ?pl ?fs) => change (only_file_written lk_disk 13 c (put (put lk_disk 13 []) 13 c)) end. apply put_twice.
    + vm_compute. reflexivity.
Qed.
(* onto a link of the input, with --clobber: nothing is left under any of its paths *)
Example C102_merge_onto_link_ex : exists d', merge_on_disk in_order (fun _ => true) lk_disk (lk_merge true 11 [1]) = Val (Success, d') /\ contents d' 1 = Some [] /\ contents d' 21 = Some [].
Proof.
  destruct (lk_file 1 (or_intror eq_refl)) as (bs & E & _).
  destruct (C102_merge_onto_link_refuted in_order (fun _ => true) lk_disk (lk_merge true 11 [1]) [] bs 1 in_order_ok) as (d' & X & (W & _)); try reflexivity; try exact E.
  - exists d'. split; [exact X|]. split; apply W; reflexivity.
Qed.
Definition lk_cp : disk := mkDisk (fun p => p mod 10) cp_fs.
Example C102_filter_ex : exists kps d', filter_on_disk (fun _ => true) lk_cp (cp_apid 11 2) = Val (Success, d') /\ only_file_written lk_cp 2 (concat (map wire_bytes kps)) d' /\
  kps <> [] /\ exists gps d2, filter_on_disk (fun _ => true) lk_cp (cp_time 11 2) = Val (Success, d2) /\ only_file_written lk_cp 2 (concat (map group_bytes gps)) d2.
Proof.
  assert (NS : ~ same_file lk_cp 11 2) by discriminate. destruct cp_numbers as (A & B & AP).
  destruct (C102_filter_apids (fun _ => true) lk_cp (cp_apid 11 2) (concat (map wire_bytes cp_ws)) cp_ws [7] []) as (kps & d' & K & E & W);
    try reflexivity; try assumption.
  - right. reflexivity.
  - exact cp_file.
  - destruct (C102_filter_times (fun _ => true) lk_cp (cp_time 11 2) (concat (map wire_bytes cp_ws)) cp_ws (fst (run giter_next 9%nat (giter_new (packets_at 0 cp_ws)))) [] []) as (gps & d2 & _ & E2 & W2);
      try reflexivity; try assumption.
    + right. reflexivity.
    + exact cp_file.
    + apply groups_exact. apply run_yields with (fuel := 9%nat). vm_compute. reflexivity.
    + right. discriminate.
    + exists kps, d'. split; [exact E|]. split; [exact W|]. split; [|exists gps, d2; auto].
      intros ->. destruct W as [W _]. specialize (W 2 eq_refl). vm_compute in E. injection E as <-. vm_compute in W. discriminate.
Qed.
Example C102_filter_onto_link_ex : exists d', filter_on_disk (fun _ => true) lk_cp (mkFilterArgs [[55]] [] None None true 11 1) = Val (Success, d') /\ contents d' 1 = Some [] /\
  filter_on_disk (fun _ => true) lk_cp (mkFilterArgs [[55]] [] None None false 11 1) = Val (Failure, lk_cp).
Proof.
  destruct cp_numbers as (A & B & AP).
  destruct (C102_filter_onto_link_refuted (fun _ => true) lk_cp (mkFilterArgs [[55]] [] None None true 11 1) (concat (map wire_bytes cp_ws)) [7] []) as (d' & E & (W & _));
    try reflexivity; try assumption; [left; exact AP|].
  exists d'. split; [exact E|]. split; [apply W; reflexivity|]. apply (C102_no_clobber in_order (fun _ => true) lk_cp (lk_merge true 0 []) (mkFilterArgs [[55]] [] None None false 11 1)); [reflexivity|].
  vm_compute. discriminate.
Qed.
Example C102_diff_ex : diff_on_disk sum8 (mkDisk (fun p => p mod 10) od_dx) true 2 12 = Val (Some (Some (Some [], []), DiffOk)).
Proof. eapply C102_diff_same_file with (ws := od_right); [reflexivity|reflexivity|apply od_dx_files|discriminate]. Qed.
Example C102_info_ex : let d := mkDisk (fun p => p mod 10) od_dx in
  info_on_disk true d 2 true = info_on_disk true d 12 true /\ info_on_disk true d 12 true <> Val None.
Proof. cbv zeta. split; [apply (C102_info_same_file true sum8 _ 2 12 true true 1); reflexivity|]. vm_compute. discriminate. Qed.
Example C102_framing_ex : exists s, eventually (framing_command_live true (fun _ => true)
  (framing_input (mkDisk (fun p => p mod 10) [(1, ASM)]) (mkFramingArgs None 8 false false None false false 0 None 50 [] [] (Some 11) 1))
  (mkFramingArgs None 8 false false None false false 0 None 50 [] [] (Some 11) 1)) (Exited Success, Some [], s).
Proof.
  eexists. eapply (C102_framing_onto_link_refuted true (fun _ => true) (mkDisk (fun p => p mod 10) [(1, ASM)]) _ 8 (frame_pipeline 8 false None false false 0 None 50) [] [] ASM 11); reflexivity.
Qed.
Example C102_no_file_ex : exists d', merge_on_disk in_order (fun _ => true) lk_disk (lk_merge true 0 [1; 7]) = Val (Failure, d') /\ contents d' 10 = Some [] /\
  merge_on_disk in_order (fun _ => true) lk_disk (lk_merge false 17 [7]) = Val (Success, put (put lk_disk 17 []) 7 []).
Proof.
  destruct (C102_no_file in_order (fun _ => true) true sum8 lk_disk (lk_merge true 0 [1; 7]) (cp_apid 7 2) [] 7 1 true true eq_refl) as (_ & X & _).
  destruct X as (d' & E & (W & _)); try reflexivity; [left; reflexivity|right; left; reflexivity|discriminate|].
  exists d'. split; [exact E|]. split; [apply W; reflexivity|vm_compute; reflexivity].
Qed.
