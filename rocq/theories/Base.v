(* Common vocabulary of the model: panics, Rust Result, I/O errors, iterators.
   No code of /repo is modelled here except where cited. *)
From Coq Require Export List NArith ZArith Arith Lia Bool.
From Coq Require Export ZifyBool ZifyNat ZifyN.
Export ListNotations.
Open Scope list_scope.

(* A Rust computation either returns a value or panics (or aborts). *)
Inductive outcome (A : Type) : Type :=
| Val (a : A)
| Panic.
Arguments Val {A} a.
Arguments Panic {A}.

Definition obind {A B} (x : outcome A) (f : A -> outcome B) : outcome B :=
  match x with Val a => f a | Panic => Panic end.
Notation "'let*' x := e 'in' k" := (obind e (fun x => k))
  (at level 200, x name, e at level 100, k at level 200, right associativity).
Notation "'let*' ' p := e 'in' k" := (obind e (fun p => k))
  (at level 200, p pattern, e at level 100, k at level 200, right associativity).

(* std::io::ErrorKind, as far as the code distinguishes kinds *)
Inductive iokind : Type :=
| UnexpectedEof
| Interrupted
| OtherIo (code : N).

(* ccsds-lib/src/error.rs:10-23 (messages dropped) *)
Inductive error : Type :=
| NotEnoughData (got wanted : nat)
| Io (k : iokind)
| TimecodeConfig
| IntegrityAlgorithm.

(* ccsds-lib/src/error.rs:35 *)
Inductive result (A : Type) : Type :=
| Ok (a : A)
| Err (e : error).
Arguments Ok {A} a.
Arguments Err {A} e.

(* the `?` operator inside a function returning Result *)
Definition rbind {A B} (x : outcome (result A)) (f : A -> outcome (result B)) : outcome (result B) :=
  match x with
  | Val (Ok a) => f a
  | Val (Err e) => Val (Err e)
  | Panic => Panic
  end.
Notation "'let?' x := e 'in' k" := (rbind e (fun x => k))
  (at level 200, x name, e at level 100, k at level 200, right associativity).

(* Rust indexing `v[i]` and slicing `v[a..b]`: panic when out of bounds *)
Definition get {A} (v : list A) (i : nat) : outcome A :=
  match nth_error v i with Some a => Val a | None => Panic end.

Definition slice {A} (v : list A) (a b : nat) : outcome (list A) :=
  if (a <=? b) && (b <=? length v) then Val (firstn (b - a) (skipn a v)) else Panic.

Definition slice_from {A} (v : list A) (a : nat) : outcome (list A) :=
  slice v a (length v).

(* usize subtraction: panics with overflow checks. Without them it wraps to a huge value. Most uses
   only take the difference as a slice bound, so that the outcome is a panic either way; the two that
   do not (Bytes::offset, the `last` bookkeeping of BlockIter) are proved never to underflow (C26, C28). *)
Definition usub (a b : nat) : outcome nat :=
  if b <=? a then Val (a - b) else Panic.

(* Fixed width arithmetic. [ovf] is the build profile: true = overflow-checks on (panic),
   false = wrap around. *)
Definition add_w (ovf : bool) (w : N) (a b : N) : outcome N :=
  if (a + b <? 2 ^ w)%N then Val (a + b)%N
  else if ovf then Panic else Val ((a + b) mod 2 ^ w)%N.
Definition sub_w (ovf : bool) (w : N) (a b : N) : outcome N :=
  if (b <=? a)%N then Val (a - b)%N
  else if ovf then Panic else Val (a + 2 ^ w - b)%N.
Definition mul_w (ovf : bool) (w : N) (a b : N) : outcome N :=
  if (a * b <? 2 ^ w)%N then Val (a * b)%N
  else if ovf then Panic else Val ((a * b) mod 2 ^ w)%N.

(* u16::from_be_bytes / u32::from_be_bytes *)
Definition be16 (a b : N) : N := (256 * a + b)%N.
Definition be32 (a b c d : N) : N := (256 * (256 * (256 * a + b) + c) + d)%N.
(* `x as u8` *)
Definition as_u8 (x : N) : N := (x mod 256)%N.

(* A byte list all of whose elements are bytes *)
Definition bytes_ok (l : list N) : Prop := Forall (fun b => (b < 256)%N) l.

(* Iterators: a state and a [next] function (Iterator::next with &mut self made explicit).
   [yields next s items]: calling next repeatedly from s returns Some item for each of [items],
   in order, and then None, without panicking. *)
Inductive yields {S A : Type} (next : S -> outcome (option A * S)) : S -> list A -> Prop :=
| yields_nil : forall s s', next s = Val (None, s') -> yields next s []
| yields_cons : forall s s' a items,
    next s = Val (Some a, s') -> yields next s' items -> yields next s (a :: items).

(* [panics_after next s items]: the items are returned and the following call panics. *)
Inductive panics_after {S A : Type} (next : S -> outcome (option A * S)) : S -> list A -> Prop :=
| panics_nil : forall s, next s = Panic -> panics_after next s []
| panics_cons : forall s s' a items,
    next s = Val (Some a, s') -> panics_after next s' items -> panics_after next s (a :: items).

(* Executable: run an iterator for at most [fuel] calls. *)
Inductive run_end := Finished | Panicked | OutOfFuel.
Fixpoint run {S A : Type} (next : S -> outcome (option A * S)) (fuel : nat) (s : S)
  : list A * run_end :=
  match fuel with
  | O => ([], OutOfFuel)
  | S fuel =>
      match next s with
      | Panic => ([], Panicked)
      | Val (None, _) => ([], Finished)
      | Val (Some a, s') => let '(l, e) := run next fuel s' in (a :: l, e)
      end
  end.

(* Association lists standing for std HashMap (no order of iteration is used unless said so) *)
Definition amap (V : Type) := list (N * V).
Fixpoint aget {V} (k : N) (m : amap V) : option V :=
  match m with
  | [] => None
  | (k', v) :: m => if N.eqb k k' then Some v else aget k m
  end.
Fixpoint aset {V} (k : N) (v : V) (m : amap V) : amap V :=
  match m with
  | [] => [(k, v)]
  | (k', v') :: m => if N.eqb k k' then (k, v) :: m else (k', v') :: aset k v m
  end.
