(* Model of ccsds-lib/src/framing/bytes.rs *)
From Verif Require Import Base M_Reader.

(* bytes.rs:3-8. [b_cache] is the Vec, first element first. *)
Record bytes : Type := mkBytes { b_reader : reader; b_num_read : nat; b_cache : list N }.

(* bytes.rs:14-21 *)
Definition bytes_new (r : reader) : bytes := mkBytes r 0 [].

(* Vec::pop: last element *)
Definition vec_pop {A} (v : list A) : option (A * list A) :=
  match rev v with
  | [] => None
  | x :: r => Some (x, rev r)
  end.

(* bytes.rs:23-34 next. inr k = io error of kind k *)
Definition bytes_next (b : bytes) : (N + iokind) * bytes :=
  match vec_pop (b_cache b) with
  | Some (x, c) => (inl x, mkBytes (b_reader b) (b_num_read b) c)
  | None =>
      match read 1 (b_reader b) with
      | (inr k, r) => (inr k, mkBytes r (b_num_read b) (b_cache b))
      | (inl [], r) => (inr UnexpectedEof, mkBytes r (b_num_read b) (b_cache b))
      | (inl (x :: _), r) => (inl x, mkBytes r (b_num_read b + 1) (b_cache b))
      end
  end.

(* What a buffer of n zero bytes holds after [got] was written to its front *)
Definition padded (n : nat) (got : list N) : list N := got ++ repeat 0%N (n - length got).

(* bytes.rs:36-65 fill, for a buffer of n zero bytes (as its only caller passes, synchronizer.rs:191-195).
   Returns the buffer, and Ok(bool) or Err(kind). *)
Definition bytes_fill (n : nat) (b : bytes) : list N * (bool + iokind) * bytes :=
  match b_cache b with
  | [] =>
      let '(got, st, r) := read_exact n (b_reader b) in
      match st with
      | Some UnexpectedEof => (padded n got, inl false, mkBytes r (b_num_read b) [])
      | Some k => (padded n got, inr k, mkBytes r (b_num_read b) [])
      | None => (got, inl true, mkBytes r (b_num_read b + n) [])
      end
  | _ :: _ =>
      let c := b_cache b in
      if length c <? n then
        let '(got, st, r) := read_exact (n - length c) (b_reader b) in
        match st with
        | Some k => (padded n (c ++ got), inr k, mkBytes r (b_num_read b) c)
        | None => (c ++ got, inl true, mkBytes r (b_num_read b + (n - length c)) [])
        end
      else (firstn n c, inl true, mkBytes (b_reader b) (b_num_read b) (skipn n c))
  end.

(* bytes.rs:36-65 fill, for a buffer with any contents; [over buf got]: the bytes [got] written to its front *)
Definition over (buf got : list N) : list N := got ++ skipn (length got) buf.
Definition bytes_fill_into (buf : list N) (b : bytes) : list N * (bool + iokind) * bytes :=
  match b_cache b with
  | [] =>
      let '(got, st, r) := read_exact (length buf) (b_reader b) in
      match st with
      | Some UnexpectedEof => (over buf got, inl false, mkBytes r (b_num_read b) [])
      | Some k => (over buf got, inr k, mkBytes r (b_num_read b) [])
      | None => (over buf got, inl true, mkBytes r (b_num_read b + length buf) [])
      end
  | _ :: _ =>
      let c := b_cache b in
      if length c <? length buf then
        let '(got, st, r) := read_exact (length buf - length c) (b_reader b) in
        match st with
        | Some k => (over buf (c ++ got), inr k, mkBytes r (b_num_read b) c)
        | None => (over buf (c ++ got), inl true, mkBytes r (b_num_read b + (length buf - length c)) [])
        end
      else (over buf (firstn (length buf) c), inl true, mkBytes (b_reader b) (b_num_read b) (skipn (length buf) c))
  end.

(* bytes.rs:67-69 push *)
Definition bytes_push (dat : list N) (b : bytes) : bytes :=
  mkBytes (b_reader b) (b_num_read b) (b_cache b ++ dat).

(* bytes.rs:71-73 offset (usize subtraction) *)
Definition bytes_offset (b : bytes) : outcome nat := usub (b_num_read b) (length (b_cache b)).
