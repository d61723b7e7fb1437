(* Model of ccsds-lib/src/framing/reed_solomon.rs and of the per-frame job of
   framing/pipeline/reed_solomon.rs. The codec of crate rs2 (has_errors, correct_message) is external
   and stays a parameter. *)
From Verif Require Import Base M_Frame.
Open Scope nat_scope.

(* rs2::RSState *)
Inductive rs_state : Type :=
| RsOk
| RsUncorrectable
| RsCorrected (num : nat).

(* rs2: has_errors and correct_message (state, message) on one 255 byte codeword *)
Record codec : Type := mkCodec {
  has_errors : list N -> bool;
  correct_message : list N -> rs_state * option (list N) }.

(* rs2::N and rs2::PARITY_LEN *)
Definition RS_N : nat := 255.
Definition PARITY_LEN : nat := 32.

(* `v[i] = x` *)
Definition upd {A} (v : list A) (i : nat) (x : A) : outcome (list A) :=
  if i <? length v then Val (firstn i v ++ x :: skipn (S i) v) else Panic.

(* framing/reed_solomon.rs:74-76 *)
Fixpoint deint_loop (il : nat) (data : list N) (j : nat) (z : list (list N))
  : outcome (list (list N)) :=
  match data with
  | [] => Val z
  | x :: rest =>
      let* row := get z (j mod il) in
      let* row := upd row (j / il) x in
      let* z := upd z (j mod il) row in
      deint_loop il rest (S j) z
  end.
(* framing/reed_solomon.rs:65-78 deinterleave; `% 0` panics *)
Definition deinterleave (data : list N) (il : nat) : outcome (list (list N)) :=
  if il =? 0 then Panic else
  if negb (length data mod il =? 0) then Panic else
  deint_loop il data 0 (repeat (repeat 0%N 255) il).

(* framing/reed_solomon.rs:85-92 *)
Record rs_cfg : Type := mkRs {
  rs_correct : bool;
  rs_detect : bool;
  rs_interleave : nat;        (* u8 *)
  rs_parity_len : nat;
  rs_remove_parity : bool;
  rs_virtual_fill : nat }.
(* framing/reed_solomon.rs:102-147 the constructor and the builder methods *)
Definition rs_new (interleave : nat) : rs_cfg := mkRs true true interleave PARITY_LEN true 0.
Definition rs_with_virtual_fill (c : rs_cfg) (n : nat) : rs_cfg :=
  mkRs (rs_correct c) (rs_detect c) (rs_interleave c) (rs_parity_len c) (rs_remove_parity c) n.
Definition rs_with_correction (c : rs_cfg) (b : bool) : rs_cfg :=
  mkRs b (rs_detect c) (rs_interleave c) (rs_parity_len c) (rs_remove_parity c) (rs_virtual_fill c).
Definition rs_with_detection (c : rs_cfg) (b : bool) : rs_cfg :=
  mkRs (rs_correct c) b (rs_interleave c) (rs_parity_len c) (rs_remove_parity c) (rs_virtual_fill c).
Definition rs_with_remove_parity (c : rs_cfg) (b : bool) : rs_cfg :=
  mkRs (rs_correct c) (rs_detect c) (rs_interleave c) (rs_parity_len c) b (rs_virtual_fill c).

(* framing/reed_solomon.rs:149-151 *)
Definition can_correct (block : list N) (interleave virtual_fill : nat) : bool :=
  length block + virtual_fill =? RS_N * interleave.

(* framing/reed_solomon.rs:153-156 *)
Definition remove_parity (c : rs_cfg) (dat : list N) : outcome (list N) :=
  let* stop := usub (length dat) (rs_interleave c * rs_parity_len c) in
  slice dat 0 stop.

(* framing/reed_solomon.rs:211-213 *)
Fixpoint write_message (il idx : nat) (j : nat) (msg : list N) (corrected : list N)
  : outcome (list N) :=
  match msg with
  | [] => Val corrected
  | x :: rest =>
      let* corrected := upd corrected (idx + j * il) x in
      write_message il idx (S j) rest corrected
  end.

(* framing/reed_solomon.rs:194-214: inl = early return, inr = (corrected, num_corrected) *)
Fixpoint perform_loop (k : codec) (c : rs_cfg) (cadu_dat : list N) (idx : nat)
    (messages : list (list N)) (corrected : list N) (num : nat)
  : outcome ((integrity * list N) + (list N * nat)) :=
  match messages with
  | [] => Val (inr (corrected, num))
  | msg :: rest =>
      if negb (rs_correct c) && has_errors k msg then Val (inl (INotCorrected, cadu_dat)) else
      let '(st, om) := correct_message k msg in
      let go num :=
        match om with
        | None => Panic                                    (* expect *)
        | Some m =>
            let* corrected := write_message (rs_interleave c) idx 0 m corrected in
            perform_loop k c cadu_dat (S idx) rest corrected num
        end in
      match st with
      | RsUncorrectable => let* d := remove_parity c cadu_dat in Val (inl (IUncorrectable, d))
      | RsCorrected n => go (num + n)
      | RsOk => go num
      end
  end.

(* framing/reed_solomon.rs:172-229 perform. rs_detect is not read, as in the code. *)
Definition perform (k : codec) (c : rs_cfg) (cadu_dat : list N)
  : outcome (result (integrity * list N)) :=
  if negb (can_correct cadu_dat (rs_interleave c) (rs_virtual_fill c))
  then Val (Err IntegrityAlgorithm) else
  let filled := repeat 0%N (rs_virtual_fill c) ++ cadu_dat in
  let* messages := deinterleave filled (rs_interleave c) in
  let* r := perform_loop k c filled 0 messages
              (repeat 0%N (length cadu_dat + rs_virtual_fill c)) 0 in
  match r with
  | inl res => Val (Ok res)
  | inr (corrected, num) =>
      let* zult := (if rs_remove_parity c then remove_parity c corrected else Val corrected) in
      let* zult := slice_from zult (rs_virtual_fill c) in
      Val (Ok (if num =? 0 then IOk else ICorrected, zult))
  end.

(* framing/pipeline/reed_solomon.rs:10-60 RsOpts; num_threads and buffer_size are in M_RsPipeline.v *)
Record rs_opts : Type := mkRsOpts {
  ro_interleave : nat;
  ro_virtual_fill : nat;
  ro_num_threads : nat;
  ro_buffer_size : nat;
  ro_detect : bool;
  ro_correct : bool }.
Definition rs_opts_new (interleave : nat) : rs_opts := mkRsOpts interleave 0 0 50 true true.
(* framing/pipeline/reed_solomon.rs:31-60 *)
Definition ro_with_virtual_fill (o : rs_opts) (n : nat) : rs_opts :=
  mkRsOpts (ro_interleave o) n (ro_num_threads o) (ro_buffer_size o) (ro_detect o) (ro_correct o).
Definition ro_with_num_threads (o : rs_opts) (n : nat) : rs_opts :=
  mkRsOpts (ro_interleave o) (ro_virtual_fill o) n (ro_buffer_size o) (ro_detect o) (ro_correct o).
Definition ro_with_correction (o : rs_opts) (b : bool) : rs_opts :=
  mkRsOpts (ro_interleave o) (ro_virtual_fill o) (ro_num_threads o) (ro_buffer_size o) (ro_detect o) b.
Definition ro_with_detection (o : rs_opts) (b : bool) : rs_opts :=
  mkRsOpts (ro_interleave o) (ro_virtual_fill o) (ro_num_threads o) (ro_buffer_size o) b (ro_correct o).
Definition ro_with_buffer_size (o : rs_opts) (n : nat) : rs_opts :=
  mkRsOpts (ro_interleave o) (ro_virtual_fill o) (ro_num_threads o) n (ro_detect o) (ro_correct o).

(* framing/pipeline/reed_solomon.rs:79-84 *)
Definition rs_of_opts (o : rs_opts) : rs_cfg :=
  rs_with_virtual_fill
    (rs_with_correction (rs_with_detection (rs_new (ro_interleave o)) (ro_detect o)) (ro_correct o))
    (ro_virtual_fill o).

(* framing/pipeline/reed_solomon.rs:96-109: the job run in the pool for one frame.
   Panic stands for the explicit panic! of line 100 and for panics inside perform. *)
Definition rs_job (k : codec) (c : rs_cfg) (f : frame) : outcome frame :=
  if negb (v_vcid (f_header f) =? VCID_FILL)%N then
    let* r := perform k c (f_data f) in
    match r with
    | Err _ => Panic
    | Ok (i, data) =>
        Val (mkFrame (f_header f) (f_missing f) (Some i)
               (match i with IOk | ICorrected => data | _ => f_data f end))
    end
  else Val f.
