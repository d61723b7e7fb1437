(* C90: the config file of the framing command. *)
From Coq Require Import String.
From Verif Require Import Base S_Json M_ReedSolomon M_Pipeline M_Cli M_Main M_Config S_Config P_Main2.
From Coq Require Import List NArith ZArith Bool Lia Permutation.
Import ListNotations.
Open Scope N_scope.

Lemma key_eqb_spec : forall a b, reflect (a = b) (key_eqb a b).
Proof. intros a b. unfold key_eqb. destruct (list_eq_dec N.eq_dec a b); constructor; assumption. Qed.

(* ---- values ---- *)
Lemma de_uint_is : forall b v n, de_uint b v = Some n <-> whole b v n.
Proof.
  intros b v n. unfold de_uint, whole. split.
  - destruct v; try discriminate. destruct (Z.ltb_spec z 0); [discriminate|]. destruct (N.ltb_spec (Z.to_N z) b); [|discriminate].
    intro E. injection E as <-. split; [|assumption]. rewrite Z2N.id by assumption. reflexivity.
  - intros [-> L]. destruct (Z.ltb_spec (Z.of_N n) 0); [lia|]. rewrite N2Z.id. destruct (N.ltb_spec n b); [reflexivity|lia].
Qed.
Lemma de_usize_is : forall v n, de_usize v = Some n <-> size v n.
Proof. intros. apply (de_uint_is (2 ^ 64)). Qed.
Lemma de_bool_is : forall v b, de_bool v = Some b <-> truth v b.
Proof. intros v b. unfold de_bool, truth. destruct v; split; intro E; try discriminate; injection E as ->; reflexivity. Qed.
Lemma de_type_is : forall v u, de_type v = Some u <-> aos v.
Proof.
  intros v []. unfold de_type, aos. split.
  - destruct v as [| | | |s| |l]; try discriminate.
    + destruct (key_eqb_spec s (text "AOS")); [|discriminate]. intros _. left. congruence.
    + destruct l as [|[k v] [|? ?]]; try discriminate; destruct v; try discriminate.
      destruct (key_eqb_spec k (text "AOS")); [|discriminate]. intros _. right. congruence.
  - intros [-> | ->]; destruct (key_eqb_spec (text "AOS") (text "AOS")); congruence.
Qed.
Lemma de_bytes_is : forall v bs, de_bytes v = Some bs <-> marker v bs.
Proof.
  intros v bs. unfold de_bytes, marker.
  assert (A : forall l bs, de_all (de_uint 256) l = Some bs <-> l = map (fun b => VInt (Z.of_N b)) bs /\ Forall (fun b => b < 256) bs).
  { clear. induction l as [|v r IH]; intros bs; cbn [de_all].
    - split; [intro E; injection E as <-; auto|]. intros [E _]. destruct bs; [reflexivity|discriminate].
    - split.
      + destruct (de_uint 256 v) as [x|] eqn:X; [|discriminate]. destruct (de_all (de_uint 256) r) as [xs|] eqn:R; [|discriminate].
        intro E. injection E as <-. apply de_uint_is in X. destruct X as [-> L]. destruct (proj1 (IH xs) eq_refl) as [-> F].
        split; [reflexivity|]. constructor; assumption.
      + intros [E F]. destruct bs as [|b bs]; [discriminate|]. injection E as -> ->. inversion F; subst.
        rewrite (proj2 (de_uint_is 256 _ b)) by (split; [reflexivity|assumption]).
        rewrite (proj2 (IH bs)) by (split; [reflexivity|assumption]). reflexivity. }
  destruct v; split; try discriminate; try (intros [E _]; discriminate).
  - intro E. apply A in E. destruct E as [-> F]. auto.
  - intros [E F]. injection E as ->. apply A. auto.
Qed.
Lemma de_option_is : forall A (f : jval -> option A) (is : jval -> A -> Prop),
  (forall v x, f v = Some x <-> is v x) -> f VNull = None -> forall v o, de_option f v = Some o <-> maybe is v o.
Proof.
  intros A f is H N v o. unfold de_option, maybe. destruct o as [x|].
  - rewrite <- H. assert (E : forall w, match f w with Some y => Some (Some y) | None => None end = Some (Some x) <-> f w = Some x).
    { intro w. destruct (f w); split; intro E; congruence. }
    destruct v; try apply E. rewrite N. split; discriminate.
  - destruct v; try (split; reflexivity); match goal with |- context [f ?w] => destruct (f w) end; split; discriminate.
Qed.

(* ---- members ---- *)
Definition runs {A} (k : string) (de : jval -> option A) (old : option A) (l : list (list N * jval)) (new : option A) : Prop :=
  (lacks l k /\ new = old) \/ (old = None /\ exists v x, has_once l k v /\ de v = Some x /\ new = Some x).
Lemma runs_nil : forall A k (de : jval -> option A) old new, runs k de old [] new <-> new = old.
Proof.
  intros. unfold runs, lacks, has_once. split.
  - intros [[_ E]|(_ & v & x & (b & a & E & _) & _)]; [assumption|destruct b; discriminate].
  - intros ->. left. split; [intros []|reflexivity].
Qed.
Lemma runs_other : forall A k (de : jval -> option A) old k' v l new, k' <> text k ->
  (runs k de old ((k', v) :: l) new <-> runs k de old l new).
Proof.
  intros A k de old k' v l new D. unfold runs, lacks, has_once. split.
  - intros [[N E]|(O & w & x & (b & a & E & Nb & Na) & X & ->)].
    + left. split; [|assumption]. intro I. apply N. right. exact I.
    + right. split; [assumption|]. exists w, x. split; [|auto]. destruct b as [|[] b].
      * injection E as E1 _ _. contradiction.
      * injection E as <- <- ->. exists b, a. repeat split; try assumption. intro I. apply Nb. right. exact I.
  - intros [[N E]|(O & w & x & (b & a & -> & Nb & Na) & X & ->)].
    + left. split; [|assumption]. intros [I|I]; [exact (D I)|exact (N I)].
    + right. split; [assumption|]. exists w, x. split; [|auto]. exists ((k', v) :: b), a. repeat split; try assumption.
      intros [I|I]; [exact (D I)|exact (Nb I)].
Qed.
Lemma runs_same : forall A k (de : jval -> option A) old v l new,
  (runs k de old ((text k, v) :: l) new <-> exists s, set_once old (de v) = Some s /\ runs k de s l new).
Proof.
  intros A k de old v l new. unfold runs, lacks, has_once, set_once. split.
  - intros [[N E]|(-> & w & x & (b & a & E & Nb & Na) & X & ->)].
    + exfalso. apply N. left. reflexivity.
    + destruct b as [|[] b].
      * injection E as -> ->. rewrite X. exists (Some x). split; [reflexivity|]. left. split; [assumption|reflexivity].
      * injection E as <- <- ->. exfalso. apply Nb. left. reflexivity.
  - intros (s & S & R). destruct old; [discriminate|]. destruct (de v) as [x|] eqn:X; [|discriminate]. injection S as <-.
    destruct R as [[N ->]|[O _]]; [|discriminate]. right. split; [reflexivity|]. exists v, x. split; [|auto].
    exists [], l. repeat split; [intros []|assumption].
Qed.
Lemma rs_members_is : forall l il vf il' vf', rs_members il vf l = Some (il', vf') <->
  runs "interleave" de_usize il l il' /\ runs "virtualfill" de_usize vf l vf'.
Proof.
  induction l as [|[k v] l IH]; intros il vf il' vf'; cbn [rs_members].
  - rewrite !runs_nil. split; [intro E; injection E; auto|]. intros [-> ->]. reflexivity.
  - destruct (key_eqb_spec k (text "interleave")) as [->|D1].
    { rewrite runs_same, (runs_other _ "virtualfill") by discriminate.
      destruct (set_once il (de_usize v)) as [s|].
      - rewrite IH. split; [intros [A B]; split; [exists s; auto|assumption]|]. intros [(s' & E & A) B]. injection E as <-. auto.
      - split; [discriminate|]. intros [(s' & E & _) _]. discriminate. }
    rewrite (runs_other _ "interleave") by exact D1.
    destruct (key_eqb_spec k (text "virtualfill")) as [->|D2].
    { rewrite runs_same.
      destruct (set_once vf (de_usize v)) as [s|].
      - rewrite IH. split; [intros [A B]; split; [assumption|exists s; auto]|]. intros [B (s' & E & A)]. injection E as <-. auto.
      - split; [discriminate|]. intros [_ (s' & E & _)]. discriminate. }
    rewrite (runs_other _ "virtualfill") by exact D2. apply IH.
Qed.
Lemma config_members_is : forall l s s', config_members s l = Some s' <->
  runs "asm" (de_option de_bytes) (f_asm s) l (f_asm s') /\ runs "scid" (de_uint 65536) (f_scid s) l (f_scid s') /\
  runs "type" de_type (f_type s) l (f_type s') /\ runs "length" de_usize (f_length s) l (f_length s') /\
  runs "pn" de_bool (f_pn s) l (f_pn s') /\ runs "rs" (de_option de_rs) (f_rs s) l (f_rs s').
Proof.
  induction l as [|[k v] l IH]; intros s s'; cbn [config_members].
  - rewrite !runs_nil. destruct s as [a i t n p x], s' as [a1 i1 t1 n1 p1 x1]. cbn [f_asm f_scid f_type f_length f_pn f_rs].
    split; [intro E; injection E; intuition congruence|]. intros (-> & -> & -> & -> & -> & ->). reflexivity.
  - destruct s as [a i t n p x]. cbn [f_asm f_scid f_type f_length f_pn f_rs].
    destruct (key_eqb_spec k (text "asm")) as [->|D1]; [|destruct (key_eqb_spec k (text "scid")) as [->|D2];
      [|destruct (key_eqb_spec k (text "type")) as [->|D3]; [|destruct (key_eqb_spec k (text "length")) as [->|D4];
      [|destruct (key_eqb_spec k (text "pn")) as [->|D5]; [|destruct (key_eqb_spec k (text "rs")) as [->|D6]]]]]];
    rewrite ?runs_same, ?(runs_other _ "asm"), ?(runs_other _ "scid"), ?(runs_other _ "type"), ?(runs_other _ "length"),
      ?(runs_other _ "pn"), ?(runs_other _ "rs") by (assumption || discriminate);
    try (match goal with |- context [set_once ?o ?d] => destruct (set_once o d) as [y|] end;
         [rewrite IH; cbn [f_asm f_scid f_type f_length f_pn f_rs]; split;
            [intuition eauto|intros H; decompose [and ex] H; repeat match goal with E : Some _ = Some _ |- _ => injection E as <- end; auto 10]
         |split; [discriminate|intros H; decompose [and ex] H; discriminate]]).
    rewrite IH. reflexivity.
Qed.
Lemma runs_required : forall A k (de : jval -> option A) is l x, (forall v x, de v = Some x <-> is v x) ->
  (runs k de None l (Some x) <-> required is l k x).
Proof.
  intros A k de is l x H. unfold runs, required. split.
  - intros [[_ E]|(_ & v & y & O & D & E)]; [discriminate|]. injection E as <-. exists v. split; [assumption|]. apply H, D.
  - intros (v & O & D). right. split; [reflexivity|]. exists v, x. split; [assumption|]. split; [|reflexivity]. apply H, D.
Qed.
Lemma runs_optional : forall A k (f : jval -> option A) is l x, (forall v x, f v = Some x <-> is v x) -> f VNull = None ->
  ((exists o, runs k (de_option f) None l o /\ default_none o = x) <-> optional is l k x).
Proof.
  intros A k f is l x H N. unfold runs, optional. split.
  - intros (o & [[L ->]|(_ & v & y & O & D & ->)] & <-); cbn [default_none]; [left; auto|]. right. exists v. split; [assumption|].
    apply (de_option_is _ f is H N), D.
  - intros [[L ->]|(v & O & M)].
    + exists None. split; [left; auto|reflexivity].
    + exists (Some x). split; [|reflexivity]. right. split; [reflexivity|]. exists v, x. split; [assumption|].
      split; [|reflexivity]. apply (de_option_is _ f is H N), M.
Qed.
Lemma de_rs_is : forall v x, de_rs v = Some x <-> rs_is v x.
Proof.
  intros v [i f]. unfold de_rs, rs_is. cbn [fst snd]. split.
  - destruct v as [| | | | |l|l]; try discriminate.
    + destruct l as [|a [|b [|? ?]]]; try discriminate. destruct (de_usize a) eqn:A; [|discriminate]. destruct (de_usize b) eqn:B; [|discriminate].
      intro E. injection E as -> ->. right. exists a, b. rewrite <- !de_usize_is. auto.
    + destruct (rs_members None None l) as [[[i'|] [f'|]]|] eqn:R; try discriminate. intro E. injection E as -> ->.
      apply rs_members_is in R. destruct R as [R1 R2]. apply (runs_required _ _ _ _ _ _ de_usize_is) in R1, R2.
      destruct R1 as (a & O1 & S1), R2 as (b & O2 & S2). left. exists l, a, b. auto.
  - intros [(l & a & b & -> & O1 & O2 & S1 & S2)|(a & b & -> & S1 & S2)].
    + rewrite (proj2 (rs_members_is l None None (Some i) (Some f))); [reflexivity|].
      split; apply (runs_required _ _ _ _ _ _ de_usize_is); [exists a|exists b]; auto.
    + apply de_usize_is in S1, S2. rewrite S1, S2. reflexivity.
Qed.

(* What is accepted as a config and what it says. *)
Theorem C90_config : forall v c, de_config v = Some c <-> config_is v c.
Proof.
  intros v [a i n p x]. unfold de_config, config_is. cbn [fc_asm fc_scid fc_length fc_pn fc_rs].
  pose proof (de_option_is _ de_bytes marker de_bytes_is eq_refl) as OB. pose proof (de_option_is _ de_rs rs_is de_rs_is eq_refl) as OR.
  split.
  - destruct v as [| | | | |l|l]; try discriminate.
    + destruct l as [|v1 [|v2 [|v3 [|v4 [|v5 [|v6 [|? ?]]]]]]]; try discriminate.
      destruct (de_option de_bytes v1) eqn:E1; [|discriminate]. destruct (de_uint 65536 v2) eqn:E2; [|discriminate].
      destruct (de_type v3) eqn:E3; [|discriminate]. destruct (de_usize v4) eqn:E4; [|discriminate].
      destruct (de_bool v5) eqn:E5; [|discriminate]. destruct (de_option de_rs v6) eqn:E6; [|discriminate].
      intro E. injection E as -> -> -> -> ->. right. exists v1, v2, v3, v4, v5, v6. split; [reflexivity|].
      apply OB in E1. apply OR in E6. apply de_uint_is in E2. apply de_type_is in E3. apply de_usize_is in E4. apply de_bool_is in E5.
      auto 10.
    + destruct (config_members _ l) as [[ma [i'|] [[]|] [n'|] [p'|] mx]|] eqn:R; try discriminate. intro E. injection E as <- -> -> -> <-.
      apply config_members_is in R. cbn [f_asm f_scid f_type f_length f_pn f_rs] in R. destruct R as (R1 & R2 & R3 & R4 & R5 & R6).
      left. exists l. split; [reflexivity|].
      split; [apply (runs_optional _ _ _ _ _ _ de_bytes_is eq_refl); eauto|].
      split; [apply (runs_required _ _ _ _ _ _ (de_uint_is 65536)); assumption|].
      split; [apply (runs_required _ _ _ (fun v _ => aos v) _ tt de_type_is); assumption|].
      split; [apply (runs_required _ _ _ _ _ _ de_usize_is); assumption|].
      split; [apply (runs_required _ _ _ _ _ _ de_bool_is); assumption|].
      apply (runs_optional _ _ _ _ _ _ de_rs_is eq_refl); eauto.
  - intros [(l & -> & H1 & H2 & H3 & H4 & H5 & H6)|(v1 & v2 & v3 & v4 & v5 & v6 & -> & H1 & H2 & H3 & H4 & H5 & H6)].
    + apply (runs_optional _ _ _ _ _ _ de_bytes_is eq_refl) in H1. destruct H1 as (ma & H1 & <-).
      apply (runs_optional _ _ _ _ _ _ de_rs_is eq_refl) in H6. destruct H6 as (mx & H6 & <-).
      apply (runs_required _ _ _ _ _ _ (de_uint_is 65536)) in H2. apply (runs_required _ _ _ (fun v _ => aos v) _ tt de_type_is) in H3.
      apply (runs_required _ _ _ _ _ _ de_usize_is) in H4. apply (runs_required _ _ _ _ _ _ de_bool_is) in H5.
      rewrite (proj2 (config_members_is l (mkFields None None None None None None) (mkFields ma (Some i) (Some tt) (Some n) (Some p) mx)));
        [reflexivity|]. cbn [f_asm f_scid f_type f_length f_pn f_rs]. auto 10.
    + apply OB in H1. apply OR in H6. apply (de_uint_is 65536) in H2. apply (de_type_is _ tt) in H3. apply de_usize_is in H4. apply de_bool_is in H5.
      rewrite H1, H2, H3, H4, H5, H6. reflexivity.
Qed.
Print Assumptions C90_config.

Lemma runs_perm : forall A k (de : jval -> option A) old l l' new, Permutation l l' -> runs k de old l new -> runs k de old l' new.
Proof.
  intros A k de old l l' new P. unfold runs, lacks. intros [[N ->]|(O & v & x & (b & a & -> & Nb & Na) & D & ->)].
  - left. split; [|reflexivity]. intro I. apply N. apply (Permutation_in (text k) (Permutation_sym (Permutation_map fst P))), I.
  - right. split; [assumption|]. exists v, x. split; [|auto].
    assert (I : In (text k, v) l') by (apply (Permutation_in _ P), in_elt).
    apply in_split in I. destruct I as (b' & a' & ->). exists b', a'. split; [reflexivity|].
    assert (Q : Permutation (b ++ a) (b' ++ a')) by (apply (Permutation_app_inv b a b' a' (text k, v)), P).
    assert (N : ~ In (text k) (map fst (b' ++ a'))).
    { intro I. apply (Permutation_in _ (Permutation_sym (Permutation_map fst Q))) in I. rewrite map_app in I. apply in_app_or in I. tauto. }
    rewrite map_app, in_app_iff in N. tauto.
Qed.
Lemma runs_extra : forall A k (de : jval -> option A) old l extra new, ~ In (text k) (map fst extra) ->
  (runs k de old (extra ++ l) new <-> runs k de old l new).
Proof.
  intros A k de old l extra new. induction extra as [|[k' v] r IH]; intro N; [reflexivity|]. cbn [app].
  rewrite runs_other, IH; [reflexivity| |]; intro E; apply N; [right; exact E|left; exact E].
Qed.
(* Neither the order of the members nor members with other names matter. *)
Theorem C90_other_members : forall l extra l', (forall k v, In (k, v) extra -> ~ known k) -> Permutation l' (extra ++ l) ->
  de_config (VObj l') = de_config (VObj l).
Proof.
  intros l extra l' U P. unfold de_config.
  assert (X : forall k, known (text k) -> ~ In (text k) (map fst extra)).
  { intros k K I. apply in_map_iff in I. destruct I as ([k' v] & E & I). cbn [fst] in E. subst. exact (U _ _ I K). }
  assert (M : forall s s', config_members s l' = Some s' <-> config_members s l = Some s').
  { intros s s'. rewrite !config_members_is.
    assert (R : forall A k (de : jval -> option A) old new, known (text k) -> (runs k de old l' new <-> runs k de old l new)).
    { intros A k de old new K. rewrite <- (runs_extra _ k de old l extra new (X k K)). split; apply runs_perm; [assumption|symmetry; assumption]. }
    rewrite !R by (unfold known; cbn [map]; repeat (try (left; reflexivity); right)). reflexivity. }
  destruct (config_members _ l) as [s|] eqn:E.
  - apply M in E. rewrite E. reflexivity.
  - destruct (config_members _ l') as [s|] eqn:E'; [|reflexivity]. apply M in E'. congruence.
Qed.
Print Assumptions C90_other_members.

(* The framing command with a config file, on an input that is a file: if the file says what a config is, the command runs with
   its values; else it fails before any file is touched. *)
Theorem C90_framing : forall parse ovf k nthreads creatable fs p a, aget (fr_input a) fs <> None ->
  (forall bs v c, aget p fs = Some bs -> parse bs = Some v -> config_is v c -> forall x fs' r,
     framing_from parse ovf k nthreads creatable fs (Some p) a x fs' r <->
     framing_command ovf k nthreads creatable fs (with_config a (Some (used c))) x fs' r) /\
  ((~ exists bs v c, aget p fs = Some bs /\ parse bs = Some v /\ config_is v c) -> forall x fs' r,
     framing_from parse ovf k nthreads creatable fs (Some p) a x fs' r <-> x = Failure /\ fs' = fs /\ r = None).
Proof.
  intros parse ovf k nt creatable fs p a HI. destruct (aget (fr_input a) fs) as [inp|] eqn:EI; [|congruence].
  split.
  - intros bs v c HB HV HC x fs' r.
    assert (R : config_read parse fs p = Some c) by (unfold config_read; rewrite HB, HV; apply C90_config, HC).
    split.
    + intro H. inversion H as [? ? ? Q|? Q BR|? ? Q _ BC|? ? c' ? ? ? Q _ BC F]; subst; try discriminate; injection Q as <-.
      * apply framing_bad_args. unfold framing_setup, with_config. cbn [fr_include fr_exclude fr_config].
        destruct BR as [-> | ->]; [reflexivity|]. destruct (parse_number_ranges _); reflexivity.
      * congruence.
      * rewrite R in BC. injection BC as <-. assumption.
    + intro F. eapply from_config; eauto.
  - intros N x fs' r.
    assert (R : config_read parse fs p = None).
    { unfold config_read. destruct (aget p fs) as [bs|] eqn:B; [|reflexivity]. destruct (parse bs) as [v|] eqn:V; [|reflexivity].
      destruct (de_config v) as [c|] eqn:C; [|reflexivity]. destruct N. exists bs, v, c. split; [reflexivity|]. split; [exact V|]. apply C90_config, C. }
    split.
    + intro H. inversion H as [? ? ? Q|? Q BR|? ? Q _ BC|? ? c' ? ? ? Q _ BC F]; subst; try discriminate; auto.
      injection Q as <-. congruence.
    + intros (-> & -> & ->). eapply from_bad_config; eauto.
Qed.
Print Assumptions C90_framing.

(* Reading a config does not change the other options: [with_config] replaces the config alone. *)
Theorem C90_options_kept : forall a c, only_config a c (with_config a c).
Proof. intros [] c. repeat split. Qed.
Print Assumptions C90_options_kept.
(* Without a config file the command runs with its options. *)
Theorem C90_no_config : forall parse ovf k nthreads creatable fs a a' x fs' r, only_config a None a' ->
  framing_from parse ovf k nthreads creatable fs None a x fs' r <-> framing_command ovf k nthreads creatable fs a' x fs' r.
Proof.
  intros parse ovf k nt creatable fs a a' x fs' r H.
  assert (E : a' = with_config a None).
  { destruct a, a'. unfold only_config in H. unfold with_config. cbn in *. destruct H as (-> & -> & -> & -> & -> & -> & -> & -> & -> & -> & -> & -> & -> & ->). reflexivity. }
  subst a'. split; intros X; [|apply from_flags; [reflexivity|exact X]]. inversion X; subst; try discriminate. assumption.
Qed.
Print Assumptions C90_no_config.

(* The config that the help text documents has "type": "aos"; it is refused. *)
Theorem C90_documented_refuted : forall parse ovf k nthreads creatable fs p a bs l x fs' r,
  aget (fr_input a) fs <> None -> aget p fs = Some bs -> parse bs = Some (VObj l) -> In (text "type", VStr (text "aos")) l ->
  framing_from parse ovf k nthreads creatable fs (Some p) a x fs' r <-> x = Failure /\ fs' = fs /\ r = None.
Proof.
  intros parse ovf k nt creatable fs p a bs l x fs' r HI HB HV T. apply C90_framing; [assumption|].
  intros (bs' & v & c & B & V & C). rewrite HB in B. injection B as <-. rewrite HV in V. injection V as <-.
  destruct C as [(l' & E & _ & _ & (v & (b & a' & L & Nb & Na) & [H|H]) & _)|(?&?&?&?&?&?&E&_)]; [| |discriminate]; injection E as <-; subst.
  - apply in_app_or in T. destruct T as [T|[T|T]]; [|discriminate|]; apply (in_map fst) in T; tauto.
  - apply in_app_or in T. destruct T as [T|[T|T]]; [|discriminate|]; apply (in_map fst) in T; tauto.
Qed.
Print Assumptions C90_documented_refuted.

Definition cx_members : list (list N * jval) :=
  [(text "scid", VInt 157); (text "type", VStr (text "AOS")); (text "length", VInt 892); (text "pn", VBool true)].
Definition cx_rs : jval := VObj [(text "interleave", VInt 4); (text "virtualfill", VInt 0)].
Example C90_ex :
  de_config (VObj ((text "rs", cx_rs) :: cx_members ++ [(text "asm", VArr [VInt 26; VInt 207; VInt 252; VInt 29])])) =
    Some (mkFull (Some [26; 207; 252; 29]) 157 892 true (Some (4, 0))) /\
  (* another spelling of rs: there is no Reed-Solomon decoding *)
  de_config (VObj ((text "RS", cx_rs) :: cx_members)) = Some (mkFull None 157 892 true None) /\
  (* a missing length, a member twice, a number that is no u16 *)
  de_config (VObj [(text "scid", VInt 157); (text "type", VStr (text "AOS")); (text "pn", VBool true)]) = None /\
  de_config (VObj ((text "pn", VBool true) :: cx_members)) = None /\
  de_config (VArr [VNull; VInt 65536; VStr (text "AOS"); VInt 892; VBool true; VNull]) = None /\
  de_config (VArr [VNull; VInt 65535; VStr (text "AOS"); VInt 892; VBool true; VNull]) = Some (mkFull None 65535 892 true None).
Proof. repeat split; vm_compute; reflexivity. Qed.
Example C90_ex_other : forall k v, In (k, v) [(text "RS", cx_rs)] -> ~ known k.
Proof. intros k v [E|[]]. injection E as <- <-. unfold known. cbn. intuition discriminate. Qed.
(* What the command then decodes with. The interleave is taken modulo 256; without an "rs" the command line's --rs counts. *)
Theorem C90_values : forall a c len p i e, framing_setup (with_config a (Some (used c))) = Some (len, p, i, e) ->
  N.of_nat len = fc_length c /\ 0 < fc_length c /\ pl_derandomize p = fc_pn c /\
  match fc_rs c, fr_rs a, pl_rs p with
  | Some (il, vf), _, Some o => N.of_nat (ro_interleave o) = il mod 256 /\ N.of_nat (ro_virtual_fill o) = vf
  | None, Some il, Some o => ro_interleave o = il /\ ro_virtual_fill o = fr_rs_virtualfill a
  | None, None, None => True
  | _, _, _ => False
  end.
Proof.
  intros a c len p i e H. apply C59_options in H. cbn [with_config used fr_config cfg_length cfg_pn cfg_rs fr_rs fr_rs_virtualfill] in H.
  destruct H as (L & (-> & D & R) & _). rewrite N2Nat.id. split; [reflexivity|]. split; [lia|]. split; [assumption|].
  destruct (fc_rs c) as [[il vf]|]; destruct (pl_rs p) as [o|]; destruct (fr_rs a); try exact R; try tauto;
    destruct R as (R1 & R2 & _); rewrite R1, R2, N2Nat.id, Nat2N.inj_mod, N2Nat.id; split; reflexivity.
Qed.
Print Assumptions C90_values.
Example C90_ex_values : framing_setup (with_config (fx_args None (Some 4%nat)) (Some (used (mkFull None 157 8 true None)))) <> None.
Proof. vm_compute. discriminate. Qed.
