(* Specification: reading the text report of the info command. Spec vocabulary: [lines_of], [words_of], [shows], [cells],
   [is_number] (S_Text.v); [stamps], [min_of], [max_of] (S_Cli.v); [gaps] (S_Group.v). *)
From Coq Require Import String List.
From Verif Require Import Base M_Packet S_Json S_Cli S_Packet S_Group S_Text.
Open Scope N_scope.

(* no newline and none of the characters that HTML wants escaped: double and single quote, &, <, =, >, ` *)
Definition plain (s : list N) : Prop := Forall (fun c => ~ In c [10; 34; 38; 39; 60; 61; 62; 96]) s.
(* the pieces between commas (44) *)
Fixpoint commas_from (cur : list N) (t : list N) : list (list N) :=
  match t with
  | [] => [rev cur]
  | c :: t => if c =? 44 then rev cur :: commas_from [] t else commas_from (c :: cur) t
  end.
Definition between_commas (t : list N) : list (list N) := match t with [] => [] | _ => commas_from [] t end.

(* a label and then the text [s] *)
Definition labelled (label : string) (s line : list N) : Prop := line = text label ++ s.
(* a label and then a number *)
Definition counted (label : string) (n : N) (line : list N) : Prop := exists s, line = text label ++ s /\ shows s n.

(* the earliest and the latest time of packets, as [epoch_text] writes them; nothing if there is none *)
Definition earliest (time_of : packet -> option Z) (epoch_text : Z -> list N) (ps : list packet) : list N :=
  match min_of (stamps time_of ps) with Some t => epoch_text t | None => [] end.
Definition latest (time_of : packet -> option Z) (epoch_text : Z -> list N) (ps : list packet) : list N :=
  match max_of (stamps time_of ps) with Some t => epoch_text t | None => [] end.
Definition time_span (time_of : packet -> option Z) (ps : list packet) : Z :=
  match min_of (stamps time_of ps), max_of (stamps time_of ps) with Some f, Some l => (l - f)%Z | _, _ => 0%Z end.
(* a column with blanks and then the text *)
Definition right_aligned (s column : list N) : Prop := exists k, column = repeat 32 k ++ s.

(* The row of one apid: its first word is the apid, its last two are the number of packets and of missing packets; when
   the numbers and times are not too long for their columns each is found in its column. *)
Definition apid_row (time_of : packet -> option Z) (epoch_text : Z -> list N) (a : N) (ps : list packet) (line : list N) : Prop :=
  let n := N.of_nat (length ps) in
  (exists wa between wn wm, words_of line = wa :: between ++ [wn; wm] /\ is_number wa a /\ is_number wn n /\ is_number wm (gaps ps)) /\
  (a < 10 ^ 6 -> n < 10 ^ 6 -> gaps ps < 10 ^ 7 ->
   (length (earliest time_of epoch_text ps) <= 33)%nat -> (length (latest time_of epoch_text ps) <= 33)%nat ->
   length line = 95%nat /\ exists ca cf cl cn cm,
     cells [6; 2; 33; 2; 33; 3; 6; 3; 7]%nat line = [ca; text "  "; cf; text "  "; cl; text "   "; cn; text "   "; cm] /\
     shows ca a /\ right_aligned (earliest time_of epoch_text ps) cf /\ right_aligned (latest time_of epoch_text ps) cl /\
     shows cn n /\ shows cm (gaps ps)).
