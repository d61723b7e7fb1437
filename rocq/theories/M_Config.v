(* Model of Config::read (ccsds-cmd/src/config.rs:8-32) behind serde_json's reading of text, and of the framing command with
   the name of a config file (ccsds-cmd/src/main.rs:431-455). The code is what #[derive(Deserialize)] makes of the structs and
   what serde_json makes of the calls. Simplified: errors are None, without their text; a member that makes reading fail makes
   all of it fail, so the order of errors does not matter. *)
From Coq Require Import String.
From Verif Require Import Base S_Json M_ReedSolomon M_Pipeline M_Cli M_Main.
From Coq Require Import List NArith ZArith Bool.
Import ListNotations.
Open Scope N_scope.

(* What a JSON text says, with all members of objects in their order. VInt is a number without fraction and exponent (but not
   -0, which serde_json takes for a float), VFloat any other number. *)
Inductive jval : Type :=
| VNull
| VBool (b : bool)
| VInt (z : Z)
| VFloat
| VStr (s : list N)
| VArr (l : list jval)
| VObj (l : list (list N * jval)).

(* config.rs:14-24, with scid; the type has only one value *)
Record full_config : Type := mkFull {
  fc_asm : option (list N);
  fc_scid : N;
  fc_length : N;
  fc_pn : bool;
  fc_rs : option (N * N) }.

(* serde's Deserialize for u8, u16, u64 = usize: floats, negative and too large numbers are errors *)
Definition de_uint (bound : N) (v : jval) : option N :=
  match v with
  | VInt z => if (z <? 0)%Z then None else if Z.to_N z <? bound then Some (Z.to_N z) else None
  | _ => None
  end.
Definition de_bool (v : jval) : option bool := match v with VBool b => Some b | _ => None end.
Definition de_usize : jval -> option N := de_uint 18446744073709551616.
(* Deserialize for Option<T>: null is None *)
Definition de_option {A} (f : jval -> option A) (v : jval) : option (option A) :=
  match v with VNull => Some None | _ => match f v with Some x => Some (Some x) | None => None end end.
(* Vec<u8>: only an array *)
Fixpoint de_all {A} (f : jval -> option A) (l : list jval) : option (list A) :=
  match l with
  | [] => Some []
  | v :: r => match f v, de_all f r with Some x, Some xs => Some (x :: xs) | _, _ => None end
  end.
Definition de_bytes (v : jval) : option (list N) := match v with VArr l => de_all (de_uint 256) l | _ => None end.
Definition key_eqb (a b : list N) : bool := if list_eq_dec N.eq_dec a b then true else false.
(* frame.rs:44-47 FrameType: the name of the variant, or an object with it and null (serde_json deserialize_enum) *)
Definition de_type (v : jval) : option unit :=
  match v with
  | VStr s => if key_eqb s (text "AOS") then Some tt else None
  | VObj [(k, VNull)] => if key_eqb k (text "AOS") then Some tt else None
  | _ => None
  end.

(* derive's visit_map: a field that is set twice is an error, unknown fields are skipped *)
Definition set_once {A} (old : option A) (new : option A) : option (option A) :=
  match old, new with None, Some x => Some (Some x) | _, _ => None end.
Fixpoint rs_members (il vf : option N) (l : list (list N * jval)) : option (option N * option N) :=
  match l with
  | [] => Some (il, vf)
  | (k, v) :: r =>
      if key_eqb k (text "interleave") then
        match set_once il (de_usize v) with Some il => rs_members il vf r | None => None end
      else if key_eqb k (text "virtualfill") then
        match set_once vf (de_usize v) with Some vf => rs_members il vf r | None => None end
      else rs_members il vf r
  end.
(* config.rs:8-12 RS *)
Definition de_rs (v : jval) : option (N * N) :=
  match v with
  | VArr [a; b] => match de_usize a, de_usize b with Some x, Some y => Some (x, y) | _, _ => None end
  | VObj l => match rs_members None None l with Some (Some x, Some y) => Some (x, y) | _ => None end
  | _ => None
  end.

Record fields : Type := mkFields {
  f_asm : option (option (list N)); f_scid : option N; f_type : option unit; f_length : option N;
  f_pn : option bool; f_rs : option (option (N * N)) }.
Fixpoint config_members (s : fields) (l : list (list N * jval)) : option fields :=
  match l with
  | [] => Some s
  | (k, v) :: r =>
      let '(mkFields a i t n p x) := s in
      if key_eqb k (text "asm") then
        match set_once a (de_option de_bytes v) with Some a => config_members (mkFields a i t n p x) r | None => None end
      else if key_eqb k (text "scid") then
        match set_once i (de_uint 65536 v) with Some i => config_members (mkFields a i t n p x) r | None => None end
      else if key_eqb k (text "type") then
        match set_once t (de_type v) with Some t => config_members (mkFields a i t n p x) r | None => None end
      else if key_eqb k (text "length") then
        match set_once n (de_usize v) with Some n => config_members (mkFields a i t n p x) r | None => None end
      else if key_eqb k (text "pn") then
        match set_once p (de_bool v) with Some p => config_members (mkFields a i t n p x) r | None => None end
      else if key_eqb k (text "rs") then
        match set_once x (de_option de_rs v) with Some x => config_members (mkFields a i t n p x) r | None => None end
      else config_members s r
  end.
(* missing fields: None for an Option, else an error *)
Definition default_none {A} (o : option (option A)) : option A := match o with Some x => x | None => None end.
(* config.rs:14-24 Config, derived *)
Definition de_config (v : jval) : option full_config :=
  match v with
  | VArr [a; i; t; n; p; x] =>
      match de_option de_bytes a, de_uint 65536 i, de_type t, de_usize n, de_bool p, de_option de_rs x with
      | Some a, Some i, Some _, Some n, Some p, Some x => Some (mkFull a i n p x)
      | _, _, _, _, _, _ => None
      end
  | VObj l =>
      match config_members (mkFields None None None None None None) l with
      | Some (mkFields a (Some i) (Some _) (Some n) (Some p) x) => Some (mkFull (default_none a) i n p (default_none x))
      | _ => None
      end
  | _ => None
  end.
(* what main.rs uses of it *)
Definition used (c : full_config) : config :=
  mkConfig (fc_asm c) (N.to_nat (fc_length c)) (fc_pn c)
    (match fc_rs c with Some (i, v) => Some (N.to_nat i, N.to_nat v) | None => None end).

(* config.rs:26-32; [parse] is serde_json's reading of text, of all the file *)
Definition config_read (parse : list N -> option jval) (fs : fsys) (path : N) : option full_config :=
  match aget path fs with
  | None => None
  | Some bs => match parse bs with None => None | Some v => de_config v end
  end.

Definition with_config (a : framing_args) (c : option config) : framing_args :=
  mkFramingArgs c (fr_length a) (fr_pn a) (fr_keep_fill a) (fr_rs a) (fr_rs_detect a) (fr_rs_correct a) (fr_rs_virtualfill a)
    (fr_rs_threads a) (fr_rs_buffersize a) (fr_include a) (fr_exclude a) (fr_output a) (fr_input a).
(* main.rs:437-493: the ranges are parsed, the input is opened, then the config file is read. [fr_config a] is not used. As in
   M_Main.v an input that is no file has no rule. *)
Inductive framing_from (parse : list N -> option jval) (ovf : bool) (k : codec) (nthreads : nat) (creatable : N -> bool) (fs : fsys)
  (path : option N) (a : framing_args) : exit -> fsys -> option (finfo * amap finfo) -> Prop :=
| from_flags : forall x fs' r, path = None ->
    framing_command ovf k nthreads creatable fs (with_config a None) x fs' r ->
    framing_from parse ovf k nthreads creatable fs path a x fs' r
| from_bad_ranges : forall p, path = Some p ->
    parse_number_ranges (fr_include a) = None \/ parse_number_ranges (fr_exclude a) = None ->
    framing_from parse ovf k nthreads creatable fs path a Failure fs None
| from_bad_config : forall p bs, path = Some p ->
    aget (fr_input a) fs = Some bs -> config_read parse fs p = None ->
    framing_from parse ovf k nthreads creatable fs path a Failure fs None
| from_config : forall p bs c x fs' r, path = Some p -> 
    aget (fr_input a) fs = Some bs -> config_read parse fs p = Some c ->
    framing_command ovf k nthreads creatable fs (with_config a (Some (used c))) x fs' r ->
    framing_from parse ovf k nthreads creatable fs path a x fs' r.
