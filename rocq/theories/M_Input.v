(* Model of the framing command from its arguments on, with whatever its input is: ccsds-cmd/src/main.rs:40-68 InputReader and
   418-483. The buffering of BufReader is not represented: it changes how many bytes a read of the device asks for, which a
   reader here leaves open anyway. *)
From Verif Require Import Base M_Reader M_Cli M_Main M_Live M_FrameLive M_Config.
Open Scope nat_scope.

(* what the command finds outside: standard input, names that exist (std::fs::exists; an error counts as no), what opening a
   file and connecting to an address give *)
Record world : Type := mkWorld {
  w_stdin : reader;
  w_exists : N -> bool;
  w_open : N -> option reader;
  w_connect : N -> option reader }.

(* main.rs:47-56 InputReader::from_str; [dash] is the name "-" *)
Definition open_input (dash : N) (w : world) (name : N) : option reader :=
  if (name =? dash)%N then Some (w_stdin w)
  else if w_exists w name then w_open w name
  else w_connect w name.

(* main.rs:437-483 without Reed-Solomon, for an input that is not the output; [cfgs] are the files that may be config files *)
Definition framing_any (parse : list N -> option jval) (ovf : bool) (creatable : N -> bool) (dash : N) (w : world) (cfgs : fsys)
    (path : option N) (a : framing_args) (fuel : nat) : progress * option (list N) * option (finfo * amap finfo) :=
  match parse_number_ranges (fr_include a), parse_number_ranges (fr_exclude a) with
  | Some _, Some _ =>
      match open_input dash w (fr_input a) with
      | None => (Exited Failure, None, None)
      | Some r =>
          match path with
          | None => framing_command_live ovf creatable (Some r) (with_config a None) fuel
          | Some p =>
              match config_read parse cfgs p with
              | None => (Exited Failure, None, None)
              | Some c => framing_command_live ovf creatable (Some r) (with_config a (Some (used c))) fuel
              end
          end
      end
  | _, _ => (Exited Failure, None, None)
  end.
