(* Property C30: derandomization *)
From Verif Require Import Base S_Bits S_Pn M_Pn L_Base L_Pn.
Open Scope nat_scope.

(* bit n of the output is bit n of the input xor bit n of the CCSDS sequence *)
Theorem C30_derandomize_bits : forall buf n, n < 8 * length buf ->
  nth n (bits (derandomize_bytes buf)) false = xorb (nth n (bits buf) false) (pn n).
Proof. intros. unfold derandomize_bytes. rewrite derand_bits by assumption. f_equal. Qed.
Print Assumptions C30_derandomize_bits.

Theorem C30_derandomize_length_bytes : forall buf,
  length (derandomize_bytes buf) = length buf /\ (bytes_ok buf -> bytes_ok (derandomize_bytes buf)).
Proof. intro. split; [apply derand_length|apply derand_bytes_ok]. Qed.
Print Assumptions C30_derandomize_length_bytes.

Theorem C30_derandomize_involution : forall buf, derandomize_bytes (derandomize_bytes buf) = buf.
Proof. intro. apply derand_involution. Qed.
Print Assumptions C30_derandomize_involution.

(* byte k of the output depends only on byte k of the input (and on k) *)
Theorem C30_derandomize_bytewise : forall buf1 buf2 k, k < length buf1 -> k < length buf2 ->
  nth k buf1 0%N = nth k buf2 0%N ->
  nth k (derandomize_bytes buf1) 0%N = nth k (derandomize_bytes buf2) 0%N.
Proof. intros. unfold derandomize_bytes. rewrite !derand_nth by assumption. congruence. Qed.
Print Assumptions C30_derandomize_bytewise.

(* the table is what its generator produces *)
Theorem C30_table_generated : generate_pn_sequence 0xa9 0xff = SEQUENCE.
Proof. vm_compute. reflexivity. Qed.
Print Assumptions C30_table_generated.

Example C30_ex : derandomize_bytes [0; 1; 2; 0xff]%N = [0xff; 0x49; 0x0c; 0x3f]%N /\ map pn (List.seq 0 12) =
  [true; true; true; true; true; true; true; true; false; true; false; false].
Proof. split; reflexivity. Qed.
