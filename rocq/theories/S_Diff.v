(* Specification of the diff command: keys, their order, and what the two columns of the report are *)
From Coq Require Import Sorted.
From Verif Require Import Base S_Packet S_Group M_Packet M_Merge S_Merge M_Cli S_Cli.
Open Scope N_scope.

Definition key_dec : forall x y : key, {x = y} + {x <> y}.
Proof. intros [[a b] c] [[d e] f]. destruct (N.eq_dec a d), (N.eq_dec b e), (N.eq_dec c f); try (right; congruence). left. congruence. Defined.

(* the order of keys: apid, then sequence id, then checksum *)
Definition key_below (a b : key) : Prop :=
  let '(a1, a2, a3) := a in let '(b1, b2, b3) := b in a1 < b1 \/ a1 = b1 /\ (a2 < b2 \/ a2 = b2 /\ a3 < b3).
Definition key_upto (a b : key) : Prop := key_below a b \/ a = b.
(* what diff compares of a packet: apid, sequence id and the checksum of the data field *)
Definition wkey (csum : list N -> N) (w : wire_packet) : key := (apid (w_header w), sequence_id (w_header w), csum (w_body w)).
(* the verdict for n differences *)
Definition report (n : nat) : diff_result := match n with O => DiffOk | _ => DiffCount (N.of_nat n) end.
(* what the two columns of the table list *)
Definition lefts (rows : list (bool * key)) : list key := map snd (filter fst rows).
Definition rights (rows : list (bool * key)) : list key := map snd (filter (fun r => negb (fst r)) rows).
(* the packets (by their keys) that l has more often than r, as often as it has them more *)
Notation only_in l r := (minus key_dec l r).
(* x is the smallest of the keys that l has more often than r and that are not below any of r *)
Definition swallowed (l r : list key) (x : key) : Prop :=
  In x (only_in l r) /\ (forall y, In y r -> key_upto y x) /\
  forall z, In z (only_in l r) -> (forall y, In y r -> key_upto y z) -> key_upto x z.
(* how many packets have the apid *)
Definition nr_apid (a : N) (ps : list packet) : N := N.of_nat (length (filter (fun p => apid (p_header p) =? a) ps)).
(* the rows of the counts table: the apids that occur differently often, in increasing order, with both numbers *)
Definition counts_table (pl pr : list packet) (rows : amap (N * N)) : Prop :=
  StronglySorted N.lt (map fst rows) /\
  forall a nl nr, In (a, (nl, nr)) rows <-> nl = nr_apid a pl /\ nr = nr_apid a pr /\ nl <> nr.
