(* Specification vocabulary for the effects of the ccsds command on files *)
From Verif Require Import Base S_Packet M_Packet M_Group S_Group M_Merge S_Merge M_Cli S_Cli M_Main.
Open Scope N_scope.

(* the numbers a list of arguments stands for *)
Definition stands_for (args : list (list N)) (vs : list N) : Prop :=
  exists vss, Forall2 denotes args vss /\ vs = concat vss.

(* included and not excluded, where numbers of 65536 and above count for nothing *)
Definition accepted (include exclude : list N) (a : N) : Prop :=
  ((forall v, In v include -> 65536 <= v) \/ In a include) /\ ~ In a exclude.

(* fs' is fs with the file p holding c *)
Definition only_written (fs : fsys) (p : N) (c : list N) (fs' : fsys) : Prop :=
  aget p fs' = Some c /\ forall q, q <> p -> aget q fs' = aget q fs.

(* the command may write its output: it does not exist, or --clobber was given *)
Definition may_write (fs : fsys) (clobber : bool) (output : N) : Prop := clobber = true \/ aget output fs = None.

(* the apid order a merge command line asks for *)
Definition asks_order (a : merge_args) (order : list N) : Prop :=
  match ma_apid_order_name a with
  | Some name => name = [106; 112; 115; 115; 45; 118; 105; 105; 114; 115] (* jpss-viirs *) /\ order = [826; 821]
  | None => match ma_apid_order a with Some o => order = o | None => order = [] end
  end.
