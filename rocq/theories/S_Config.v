(* Specification: which JSON values are a framing config, and what they say. Shared with the model: [jval] (JSON values) and
   [full_config] (the values of the fields). *)
From Coq Require Import String.
From Verif Require Import Base S_Json M_Main M_Config.
From Coq Require Import List NArith ZArith Bool.
Import ListNotations.
Open Scope N_scope.

(* the object has the member [k] exactly once, with the value [v]; it has no member [k] *)
Definition has_once (l : list (list N * jval)) (k : string) (v : jval) : Prop :=
  exists before after, l = before ++ (text k, v) :: after /\ ~ In (text k) (map fst before) /\ ~ In (text k) (map fst after).
Definition lacks (l : list (list N * jval)) (k : string) : Prop := ~ In (text k) (map fst l).

Definition whole (below : N) (v : jval) (n : N) : Prop := v = VInt (Z.of_N n) /\ n < below.
Definition size (v : jval) (n : N) : Prop := whole (2 ^ 64) v n.
Definition truth (v : jval) (b : bool) : Prop := v = VBool b.
Definition marker (v : jval) (bs : list N) : Prop := v = VArr (map (fun b => VInt (Z.of_N b)) bs) /\ Forall (fun b => b < 256) bs.
(* null stands for nothing *)
Definition maybe {A} (is : jval -> A -> Prop) (v : jval) (o : option A) : Prop :=
  match o with None => v = VNull | Some x => is v x end.
(* the type of the frames *)
Definition aos (v : jval) : Prop := v = VStr (text "AOS") \/ v = VObj [(text "AOS", VNull)].
Definition rs_is (v : jval) (x : N * N) : Prop :=
  (exists l i f, v = VObj l /\ has_once l "interleave" i /\ has_once l "virtualfill" f /\ size i (fst x) /\ size f (snd x)) \/
  (exists i f, v = VArr [i; f] /\ size i (fst x) /\ size f (snd x)).
(* a member that may be missing *)
Definition optional {A} (is : jval -> A -> Prop) (l : list (list N * jval)) (k : string) (o : option A) : Prop :=
  (lacks l k /\ o = None) \/ exists v, has_once l k v /\ maybe is v o.
Definition required {A} (is : jval -> A -> Prop) (l : list (list N * jval)) (k : string) (x : A) : Prop :=
  exists v, has_once l k v /\ is v x.

Definition config_is (v : jval) (c : full_config) : Prop :=
  (exists l, v = VObj l /\ optional marker l "asm" (fc_asm c) /\ required (whole (2 ^ 16)) l "scid" (fc_scid c) /\
     required (fun v _ => aos v) l "type" tt /\ required size l "length" (fc_length c) /\ required truth l "pn" (fc_pn c) /\
     optional rs_is l "rs" (fc_rs c)) \/
  (exists a i t n p x, v = VArr [a; i; t; n; p; x] /\ maybe marker a (fc_asm c) /\ whole (2 ^ 16) i (fc_scid c) /\ aos t /\
     size n (fc_length c) /\ truth p (fc_pn c) /\ maybe rs_is x (fc_rs c)).

Definition known (k : list N) : Prop := In k (map text ["asm"; "scid"; "type"; "length"; "pn"; "rs"]%string).

(* the options [a'] are the options [a] with the config [c] and everything else as it is *)
Definition only_config (a : framing_args) (c : option config) (a' : framing_args) : Prop :=
  fr_config a' = c /\ fr_length a' = fr_length a /\ fr_pn a' = fr_pn a /\ fr_keep_fill a' = fr_keep_fill a /\ fr_rs a' = fr_rs a /\
  fr_rs_detect a' = fr_rs_detect a /\ fr_rs_correct a' = fr_rs_correct a /\ fr_rs_virtualfill a' = fr_rs_virtualfill a /\
  fr_rs_threads a' = fr_rs_threads a /\ fr_rs_buffersize a' = fr_rs_buffersize a /\ fr_include a' = fr_include a /\
  fr_exclude a' = fr_exclude a /\ fr_output a' = fr_output a /\ fr_input a' = fr_input a.
