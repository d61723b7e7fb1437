(* Specification of interleaved Reed-Solomon blocks (CCSDS 131.0-B, section 4) *)
From Verif Require Import Base M_Frame M_ReedSolomon.
Open Scope nat_scope.

(* codeword number k of an interleaved block: its bytes k, k+I, k+2I, ... *)
Definition codeword (il : nat) (block : list N) (k : nat) : list N :=
  map (fun j => nth (k + j * il) block 0%N) (seq 0 255).
Definition codewords (il : nat) (block : list N) : list (list N) :=
  map (codeword il block) (seq 0 il).
(* the interleaved block made of the given codewords; missing bytes are 0 *)
Definition interleaved (il : nat) (words : list (list N)) : list N :=
  map (fun i => nth (i / il) (nth (i mod il) words []) 0%N) (seq 0 (255 * il)).

(* what the codec says of a codeword *)
Definition is_uncorrectable (k : codec) (w : list N) : Prop := fst (correct_message k w) = RsUncorrectable.
Definition num_corrections (k : codec) (w : list N) : nat :=
  match fst (correct_message k w) with RsCorrected n => n | _ => 0 end.
Definition message_of (k : codec) (w : list N) : list N :=
  match snd (correct_message k w) with Some m => m | None => [] end.
(* the codec returns a message of 223 to 255 bytes with every codeword it does not call uncorrectable *)
Definition codec_ok (k : codec) : Prop :=
  forall w, length w = 255 -> fst (correct_message k w) <> RsUncorrectable ->
  exists m, snd (correct_message k w) = Some m /\ 223 <= length m <= 255.
(* with virtual fill *)
Definition filled (c : rs_cfg) (block : list N) : list N := repeat 0%N (rs_virtual_fill c) ++ block.
Definition right_length (c : rs_cfg) (block : list N) : Prop :=
  length block + rs_virtual_fill c = 255 * rs_interleave c.
