(* Specification vocabulary for transfer frames *)
From Verif Require Import Base M_Frame.
Open Scope N_scope.

(* the counter of the last frame of virtual channel v in a list of frames *)
Fixpoint previous_counter (v : N) (fs : list frame) : option N :=
  match fs with
  | [] => None
  | f :: rest =>
      match previous_counter v rest with
      | Some c => Some c
      | None => if v_vcid (f_header f) =? v then Some (v_counter (f_header f)) else None
      end
  end.
(* number of frames lost between two consecutive frames of a virtual channel whose counter runs
   modulo [period] *)
Definition lost (period : Z) (cur last : N) : N := Z.to_N ((Z.of_N cur - Z.of_N last - 1) mod period).
