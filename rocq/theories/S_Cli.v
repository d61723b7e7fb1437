(* Specification vocabulary for the ccsds command *)
From Verif Require Import Base M_Packet M_Group M_Frame S_Packet S_Group S_Merge M_Merge.
Open Scope N_scope.

(* [kept P l k]: k is l without the elements that do not satisfy P, in the same order *)
Inductive kept {A} (P : A -> Prop) : list A -> list A -> Prop :=
| kept_nil : kept P [] []
| kept_yes : forall x l k, P x -> kept P l k -> kept P (x :: l) (x :: k)
| kept_no : forall x l k, ~ P x -> kept P l k -> kept P (x :: l) k.

(* the apid options: first included, then excluded *)
Definition wanted (include exclude : list N) (a : N) : Prop :=
  (include = [] \/ In a include) /\ ~ In a exclude.

(* the time options, on the CDS time of a group's first packet, which must be FIRST or standalone.
   Without --before the code uses the year 2100 (73049 days after 1900). *)
Definition timely (before after : option Z) (g : pgroup) : Prop :=
  exists f rest t, g_packets g = f :: rest /\
    (sequence_flags (p_header f) = 1 \/ sequence_flags (p_header f) = 3) /\
    cds_time f = Some t /\
    (t < match before with Some b => b | None => 73049 * 86400 * 1000000000 end)%Z /\
    (match after with Some a => a <= t | None => True end)%Z.

(* ---- number lists ---- *)
Definition digits (s : list N) : Prop := s <> [] /\ Forall (fun c => 48 <= c <= 57) s.
(* value of a decimal string *)
Fixpoint decimal (s : list N) : N :=
  match s with
  | [] => 0
  | c :: s => (c - 48) * 10 ^ N.of_nat (length s) + decimal s
  end.
(* one argument: a number, or start-end; the numbers meant, in order *)
Definition denotes (s : list N) (vs : list N) : Prop :=
  (digits s /\ decimal s < 2 ^ 32 /\ vs = [decimal s]) \/
  (exists d1 d2, s = d1 ++ [45] ++ d2 /\ digits d1 /\ digits d2 /\
     decimal d1 < decimal d2 < 2 ^ 32 /\
     vs = map (fun i => decimal d1 + N.of_nat i) (List.seq 0 (N.to_nat (decimal d2 - decimal d1 + 1)))).

(* ---- multisets ---- *)
Section Multi.
Context {A : Type} (eq_dec : forall x y : A, {x = y} + {x <> y}).
(* how many more times x is in l than in r, summed over all x *)
Fixpoint remove_one (x : A) (l : list A) : list A :=
  match l with
  | [] => []
  | y :: l => if eq_dec x y then l else y :: remove_one x l
  end.
Fixpoint minus (l r : list A) : list A :=
  match r with
  | [] => l
  | x :: r => minus (remove_one x l) r
  end.
(* the number of differences between two collections of packets *)
Definition differences (l r : list A) : nat := (length (minus l r) + length (minus r l))%nat.
End Multi.

(* ---- info ---- *)
Definition min_of (ts : list Z) : option Z := match ts with [] => None | t :: ts => Some (fold_left Z.min ts t) end.
Definition max_of (ts : list Z) : option Z := match ts with [] => None | t :: ts => Some (fold_left Z.max ts t) end.
(* the decodable times of the packets that have a secondary header *)
Fixpoint stamps (time_of : packet -> option Z) (ps : list packet) : list Z :=
  match ps with
  | [] => []
  | p :: ps => (if has_secondary_header (p_header p) then match time_of p with Some t => [t] | None => [] end else [])
               ++ stamps time_of ps
  end.

(* ---- framing ---- *)
(* the frames the command looks at *)
Definition chosen (keep_fill : bool) (include exclude : list N) (f : frame) : Prop :=
  (keep_fill = false -> v_vcid (f_header f) <> 63) /\ wanted include exclude (v_vcid (f_header f)).
(* of these, the frames whose data it writes *)
Definition usable (f : frame) : Prop :=
  f_integrity f = None \/ f_integrity f = Some IOk \/ f_integrity f = Some ICorrected.
(* how many frames have one of the given integrities *)
Lemma integrity_dec : forall a b : option integrity, {a = b} + {a <> b}.
Proof. decide equality; decide equality. Defined.
Definition count_integrity (l : list (option integrity)) (fs : list frame) : N :=
  N.of_nat (length (filter (fun f => if in_dec integrity_dec (f_integrity f) l then true else false) fs)).
Definition sumN (l : list N) : N := fold_right N.add 0 l.
