(* Specification: what Python shows of packets. Vocabulary: words, numbers (S_Text.v). *)
From Coq Require Import String List.
From Verif Require Import Base S_Cli S_Json S_Text S_Packet M_Packet.
Open Scope N_scope.

(* the message of a ValueError for want of bytes: both numbers can be read in it *)
Definition message_says (msg : list N) (wanted got : nat) : Prop :=
  exists w g, words_of msg = [text "Not"; text "enough"; text "bytes;"; text "wanted"; w ++ text ","; text "got"; g] /\
    is_number w (N.of_nat wanted) /\ is_number g (N.of_nat got).
(* the words of a header: every field with its name; [tail] is what follows the closing brace *)
Definition header_words (ws : list (list N)) (h : header) (tail : list N) : Prop :=
  exists w1 w2 w3 w4 w5 w6 w7,
    ws = [text "PrimaryHeader"; text "{"; text "version:"; w1 ++ text ","; text "type_flag:"; w2 ++ text ",";
          text "has_secondary_header:"; w3 ++ text ","; text "apid:"; w4 ++ text ","; text "sequence_flags:"; w5 ++ text ",";
          text "sequence_id:"; w6 ++ text ","; text "len_minus1:"; w7; text "}" ++ tail] /\
    is_number w1 (version h) /\ is_number w2 (type_flag h) /\ w3 = text (if has_secondary_header h then "true" else "false") /\
    is_number w4 (apid h) /\ is_number w5 (sequence_flags h) /\ is_number w6 (sequence_id h) /\ is_number w7 (len_minus1 h).
(* a text as Python's datetime.fromisoformat accepts it ends in a digit or in Z *)
Definition iso_end (t : list N) : Prop := exists t' c, t = t' ++ [c] /\ (48 <= c <= 57 \/ c = 90).
