(* Specification: where the framing command reads from. *)
From Verif Require Import Base M_Reader M_Input M_Main.

(* "-" is standard input; any other name is the file if there is one of that name, and an address to connect to if not *)
Inductive source (dash : N) (w : world) : N -> reader -> Prop :=
| from_stdin : source dash w dash (w_stdin w)
| from_file : forall name r, name <> dash -> w_exists w name = true -> w_open w name = Some r -> source dash w name r
| from_network : forall name r, name <> dash -> w_exists w name = false -> w_connect w name = Some r -> source dash w name r.
(* the same options with another input *)
Definition renamed (a : framing_args) (input : N) : framing_args :=
  mkFramingArgs (fr_config a) (fr_length a) (fr_pn a) (fr_keep_fill a) (fr_rs a) (fr_rs_detect a) (fr_rs_correct a) (fr_rs_virtualfill a)
    (fr_rs_threads a) (fr_rs_buffersize a) (fr_include a) (fr_exclude a) (fr_output a) input.
