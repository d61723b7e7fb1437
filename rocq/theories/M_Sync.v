(* Model of ccsds-lib/src/framing/synchronizer.rs and framing/pipeline/synchronize.rs *)
From Verif Require Import Base M_Reader M_Bytes.
Open Scope N_scope.

(* synchronizer.rs:8 *)
Definition ASM : list N := [0x1a; 0xcf; 0xfc; 0x1d].

(* `x << k` on u8; the code only shifts by less than 8 *)
Definition u8_shl (x : N) (k : nat) : N := N.land (N.shiftl x (N.of_nat k)) 255.

(* synchronizer.rs:11-24 left_shift. The loop `for i in 0..(dat.len() - 1)` with k != 0 panics on
   an empty slice (usize underflow, then out of bounds index). *)
Fixpoint left_shift_bytes (dat : list N) (k : nat) : list N :=
  match dat with
  | [] => []
  | [x] => [u8_shl x k]
  | x :: ((y :: _) as rest) =>
      N.lor (u8_shl x k) (if (k =? 0)%nat then 0 else N.shiftr y (N.of_nat (8 - k)))
        :: left_shift_bytes rest k
  end.
Definition left_shift (dat : list N) (k : nat) : outcome (list N) :=
  match dat with
  | [] => if (k =? 0)%nat then Val [] else Panic
  | _ => Val (left_shift_bytes dat k)
  end.

(* synchronizer.rs:28-54 create_patterns: the pattern list and the mask list *)
Definition create_patterns (dat : list N) : list (list N) * list (list N) :=
  let padded_pattern := 0 :: dat in
  let padded_mask := 0 :: repeat 255 (length dat) in
  (dat :: map (fun i => left_shift_bytes padded_pattern (8 - i)) (seq 1 7),
   repeat 255 (length dat) :: map (fun i => left_shift_bytes padded_mask (8 - i)) (seq 1 7)).

(* synchronizer.rs:58-63 *)
Record loc : Type := mkLoc { l_offset : nat; l_bit : N }.

(* synchronizer.rs:69-84; pattern_hits, a counter that the crate only writes, is kept apart, at the end
   of this file *)
Record syncer : Type := mkSyncer {
  sy_bytes : bytes;
  sy_block_size : nat;
  sy_patterns : list (list N);
  sy_masks : list (list N);
  sy_idx : nat }.

(* synchronizer.rs:93-112 new and with_asm *)
Definition syncer_new (r : reader) (block_size : nat) (asm : list N) : syncer :=
  let '(p, m) := create_patterns asm in
  mkSyncer (bytes_new r) block_size p m 0.

(* synchronizer.rs:129-162: try one pattern. [working] is the Vec of bytes read so far.
   TMatch: all bytes matched, with the last byte read; TFail: a byte did not match, working includes
   that byte; TReadErr: the reader reported an error (EOF included). *)
Inductive try_result : Type :=
| TMatch (b : N) (bs : bytes)
| TFail (working : list N) (bs : bytes)
| TReadErr (k : iokind) (bs : bytes).
Fixpoint try_pattern (pat mask : list N) (working : list N) (b : N) (bs : bytes)
  : outcome try_result :=
  match pat with
  | [] => Val (TMatch b bs)
  | p :: pat' =>
      match bytes_next bs with
      | (inr k, bs') => Val (TReadErr k bs')
      | (inl x, bs') =>
          match mask with
          | [] => Panic        (* self.masks[idx][byte_idx] out of bounds *)
          | m :: mask' =>
              if negb (N.land x m =? p) then Val (TFail (working ++ [x]) bs')
              else try_pattern pat' mask' (working ++ [x]) x bs'
          end
      end
  end.

(* Result of scan: inl (Some loc) / inl None = Ok, inr = Err(Io kind); SOutOfFuel is excluded by
   scan_safe in L_Sync.v *)
Inductive scan_res : Type :=
| SFound (l : loc)
| SNone
| SErr (k : iokind)
| SOutOfFuel.

Definition sy_set (s : syncer) (bs : bytes) (idx : nat) : syncer :=
  mkSyncer bs (sy_block_size s) (sy_patterns s) (sy_masks s) idx.

(* synchronizer.rs:124-184 scan. One unit of fuel per iteration of the 'next_pattern loop.
   The byte variable b keeps its value from the last pattern tried. *)
Fixpoint scan_loop (fuel : nat) (s : syncer) (b : N) : outcome (scan_res * syncer) :=
  match fuel with
  | O => Val (SOutOfFuel, s)
  | S fuel =>
      let* pat := get (sy_patterns s) (sy_idx s) in
      let* mask := get (sy_masks s) (sy_idx s) in
      let* t := try_pattern pat mask [] b (sy_bytes s) in
      match t with
      | TReadErr UnexpectedEof bs => Val (SNone, sy_set s bs (sy_idx s))
      | TReadErr k bs => Val (SErr k, sy_set s bs (sy_idx s))
      | TFail working bs =>
          let idx := (sy_idx s + 1)%nat in
          let x := last working 0 in
          if (idx =? 8)%nat then
            (* all but the first byte go back: reversed, then without the last element *)
            scan_loop fuel (sy_set s (bytes_push (removelast (rev working)) bs) 0) x
          else
            scan_loop fuel (sy_set s (bytes_push (rev working) bs) idx) x
      | TMatch b' bs =>
          let* off := bytes_offset bs in
          let bit := (8 - N.of_nat (sy_idx s)) mod 8 in
          let off := if bit =? 0 then (off + 1)%nat else off in
          let bs := if (0 <? sy_idx s)%nat then bytes_push [b'] bs else bs in
          Val (SFound (mkLoc off bit), sy_set s bs (sy_idx s))
      end
  end.

(* Number of bytes a reader script still holds *)
Definition ev_len (e : event) : nat := match e with EvData bs => length bs | EvFail _ => 0 end.
Definition evs_len (es : list event) : nat := fold_right (fun e n => (ev_len e + n)%nat) 0%nat es.
Definition scan_fuel (s : syncer) : nat :=
  (8 * (length (b_cache (sy_bytes s)) + evs_len (evs (b_reader (sy_bytes s)))) + 17)%nat.

Definition scan (s : syncer) : outcome (scan_res * syncer) := scan_loop (scan_fuel s) s 0.

(* synchronizer.rs:190-204 block. Note that Ok(false) from fill is ignored. *)
Definition sync_block (s : syncer) : outcome (result (list N) * syncer) :=
  let n := (sy_block_size s + (if negb (sy_idx s =? 0)%nat then 1 else 0))%nat in
  let '(buf, res, bs) := bytes_fill n (sy_bytes s) in
  match res with
  | inr k => Val (Err (Io k), sy_set s bs (sy_idx s))
  | inl _ =>
      let* bs :=
        (if negb (sy_idx s =? 0)%nat then
           let* x := get buf (length buf - 1) in Val (bytes_push [x] bs)
         else Val bs) in
      let* sh := left_shift buf (sy_idx s) in
      let* out := slice sh 0 (sy_block_size s) in
      Val (Ok out, sy_set s bs (sy_idx s))
  end.

(* synchronizer.rs:224-231 Block (= Cadu, framing/mod.rs:49) *)
Record block : Type := mkBlock { bl_last : nat; bl_loc : loc; bl_data : list N }.

(* synchronizer.rs:239-245 BlockIter *)
Record biter : Type := mkBiter { bi_sync : syncer; bi_last : nat }.

(* synchronizer.rs:253-274 BlockIter::next *)
Definition biter_next (s : biter) : outcome (option (result block) * biter) :=
  let* '(r, sy) := scan (bi_sync s) in
  match r with
  | SOutOfFuel => Panic (* excluded by scan_safe *)
  | SNone => Val (None, mkBiter sy (bi_last s))
  | SErr k => Val (Some (Err (Io k)), mkBiter sy (bi_last s))
  | SFound l =>
      let* last := (if (bi_last s =? 0)%nat then Val 0%nat else usub (l_offset l) (bi_last s)) in
      let* '(br, sy) := sync_block sy in
      match br with
      | Ok data => Val (Some (Ok (mkBlock last l data)), mkBiter sy (l_offset l))
      | Err e => Val (Some (Err e), mkBiter sy (l_offset l))
      end
  end.

(* pipeline/synchronize.rs:48-55, 81-87 synchronize(reader, SyncOpts{asm, length}) *)
Definition synchronize (r : reader) (asm : list N) (len : nat) : biter :=
  mkBiter (syncer_new r len asm) 0.

(* ---- pattern_hits: HashMap<u8, i32>, the pub field of Synchronizer ---- *)
Definition hits : Type := list (nat * Z).
Definition hit_get (h : hits) (i : nat) : option Z :=
  option_map snd (find (fun e => (fst e =? i)%nat) h).
(* `*count += 1` on an i32 *)
Definition i32_inc (ovf : bool) (c : Z) : outcome Z :=
  if (c =? 2147483647)%Z then (if ovf then Panic else Val (-2147483648)%Z) else Val (c + 1)%Z.
(* synchronizer.rs:177-180 entry(idx).and_modify(|count| *count += 1).or_insert(1) *)
Fixpoint hit_add (ovf : bool) (h : hits) (i : nat) : outcome hits :=
  match h with
  | [] => Val [(i, 1%Z)]
  | (j, c) :: h =>
      if (j =? i)%nat then let* c := i32_inc ovf c in Val ((j, c) :: h)
      else let* h := hit_add ovf h i in Val ((j, c) :: h)
  end.
(* synchronizer.rs:124-184 scan with the counter: it is updated last, and only when a marker was found *)
Definition scan_hits (ovf : bool) (s : syncer) (h : hits) : outcome (scan_res * syncer * hits) :=
  let* '(r, sy) := scan s in
  match r with
  | SFound _ => let* h := hit_add ovf h (sy_idx sy) in Val (r, sy, h)
  | _ => Val (r, sy, h)
  end.
(* synchronizer.rs:253-274 BlockIter::next with the counter *)
Definition biter_next_hits (ovf : bool) (sh : biter * hits) : outcome (option (result block) * (biter * hits)) :=
  let '(s, h) := sh in
  let* '(r, sy, h) := scan_hits ovf (bi_sync s) h in
  match r with
  | SOutOfFuel => Panic (* excluded by scan_safe *)
  | SNone => Val (None, (mkBiter sy (bi_last s), h))
  | SErr k => Val (Some (Err (Io k)), (mkBiter sy (bi_last s), h))
  | SFound l =>
      let* last := (if (bi_last s =? 0)%nat then Val 0%nat else usub (l_offset l) (bi_last s)) in
      let* '(br, sy) := sync_block sy in
      match br with
      | Ok data => Val (Some (Ok (mkBlock last l data)), (mkBiter sy (l_offset l), h))
      | Err e => Val (Some (Err e), (mkBiter sy (l_offset l), h))
      end
  end.
