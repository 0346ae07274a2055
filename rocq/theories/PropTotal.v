(** Properties C01 and C02: termination. *)
From Verif Require Import ObjModel MtlModel TokenSpec LexerProofs TotalProofs ExampleText.
Local Open Scope list_scope.

(** * C01 *)

(** If every loop is cut off after more rounds than there are tokens, the cut is
    never reached, and the result is the same for every such bound. *)
Theorem C01_obj_parse_terminates : forall dbg input ts bound,
  tokenizes input ts -> length ts < bound ->
  fst (parse_objset dbg bound (parser_new input)) = ObjModel.parse dbg input /\
  ObjModel.parse dbg input <> Diverge.
Proof. exact obj_terminates. Qed.
Print Assumptions C01_obj_parse_terminates.

(** The bound matters: with fewer rounds a run is cut off. *)
Example C01_example :
  length (lex (text "v 0 0 0|p 1|")) = 8 /\
  (exists set, fst (parse_objset true 9 (parser_new (text "v 0 0 0|p 1|"))) = Ok set) /\
  fst (parse_objset true 1 (parser_new (text "v 0 0 0|p 1|"))) = Diverge.
Proof.
  split; [vm_compute; reflexivity|]. split; [eexists|]; vm_compute; reflexivity.
Qed.

(** * C02 *)

Theorem C02_mtl_parse_is_total : forall input ts bound,
  tokenizes input ts -> length ts < bound ->
  fst (parse_mtlset bound (parser_new input)) = MtlModel.parse input /\
  ((exists set, MtlModel.parse input = Ok set) \/ (exists e, MtlModel.parse input = Err e)).
Proof. exact mtl_terminates. Qed.
Print Assumptions C02_mtl_parse_is_total.

Example C02_example :
  (exists set, MtlModel.parse (text "newmtl a|Kd 1 0.5 0|illum 1|") = Ok set) /\
  (exists e, MtlModel.parse (text "newmtl a|Kd 1 0.5|") = Err e) /\
  fst (parse_mtlset 2 (parser_new (text "newmtl a|Kd 1 0.5 0|illum 1|"))) = Diverge.
Proof. repeat split; try eexists; vm_compute; reflexivity. Qed.
