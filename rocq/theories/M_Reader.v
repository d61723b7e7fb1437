(* Model of std::io::Read as used by the crate. External code (std), not part of /repo:
   a reader is a finite script of what successive read(2)-like calls deliver, followed by a final
   behaviour that lasts forever. *)
From Verif Require Import Base.

Inductive event : Type :=
| EvData (bs : list N)      (* bytes available; [] is a read that returns Ok(0), a transient EOF *)
| EvFail (k : iokind).      (* one failing read *)

Inductive final : Type :=
| AtEof                      (* every further read returns Ok(0) *)
| Failing (code : N).        (* every further read fails with the same, non-EOF, non-Interrupted kind *)

Record reader : Type := mkReader { evs : list event; fin : final }.

(* Read::read into a buffer of n bytes: Ok(bytes) or Err(kind). *)
Definition read (n : nat) (r : reader) : (list N + iokind) * reader :=
  if n =? 0 then (inl [], r) else
  match evs r with
  | [] => match fin r with
          | AtEof => (inl [], r)
          | Failing c => (inr (OtherIo c), r)
          end
  | EvData bs :: es =>
      (inl (firstn n bs),
       mkReader (match skipn n bs with [] => es | rest => EvData rest :: es end) (fin r))
  | EvFail k :: es => (inr k, mkReader es (fin r))
  end.

(* Read::read_exact, std's default_read_exact: loop { read; Ok(0) => break; Ok(n) => advance;
   Err(Interrupted) => continue; Err(e) => return Err(e) }; unfilled => UnexpectedEof.
   Returns the bytes that were written to the buffer, and None for success or the error.
   Written as structural recursion over the script; [read_exact_loop] in L_Reader.v shows it is
   that loop over [read]. The specialised implementations for &[u8] and BufReader agree except
   for the buffer contents and reader position after an error at end of file. *)
Fixpoint read_exact_evs (n : nat) (es : list event) (f : final)
  : list N * option iokind * list event :=
  match n with
  | O => ([], None, es)
  | S _ =>
      match es with
      | [] => ([], Some (match f with AtEof => UnexpectedEof | Failing c => OtherIo c end), [])
      | EvFail Interrupted :: es => read_exact_evs n es f
      | EvFail k :: es => ([], Some k, es)
      | EvData [] :: es => ([], Some UnexpectedEof, es)
      | EvData bs :: es =>
          if length bs <? n then
            let '(got, st, es') := read_exact_evs (n - length bs) es f in (bs ++ got, st, es')
          else (firstn n bs, None, match skipn n bs with [] => es | rest => EvData rest :: es end)
      end
  end.
Definition read_exact (n : nat) (r : reader) : list N * option iokind * reader :=
  let '(got, st, es) := read_exact_evs n (evs r) (fin r) in (got, st, mkReader es (fin r)).

(* A plain in-memory or file reader without errors, delivering bs in one piece *)
Definition reader_of (bs : list N) : reader := mkReader [EvData bs] AtEof.
