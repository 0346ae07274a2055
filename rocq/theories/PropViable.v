(** C67: errors are found at the first statement that is wrong.

    C48 says that nothing behind the reported line can repair a text; here, what
    is in front of the error is fine. *)
From Verif Require Import ObjModel ObjErrorSpec ObjTop ExampleText LexerProofs Viable CutDebug.
From Verif Require MtlModel MtlSpec MtlViable.
Local Open Scope list_scope.

(** The text in front of the statement that is reported can be completed: with a
    material for the last object, it parses.  That statement starts on the
    reported line or the one before it. *)
Theorem C67_obj : forall dbg input e, fits (input ++ LF :: lit "usemtl m") -> parse dbg input = Err e ->
  exists x y z tx ty tz, input = x ++ y ++ z /\
    tokenizes x tx /\ tokenizes y ty /\ tokenizes z tz /\ tokenizes input (tx ++ ty ++ tz) /\
    fails_at (tx ++ ty ++ tz) (ty ++ tz) (err_kind e, err_message e) tz /\
    line_after x <= err_line_number e <= line_after x + 1 /\
    exists set, parse dbg (x ++ LF :: lit "usemtl m") = Ok set.
Proof. exact error_viable_mode. Qed.
Print Assumptions C67_obj.

(** So can the text up to any line end in front of it (other than that of a line
    that ends with [o]). *)
Theorem C67_obj_lines : forall dbg p z e ts, fits (p ++ LF :: z ++ LF :: lit "usemtl m") -> parse dbg (p ++ LF :: z) = Err e ->
  line_after p + 1 < err_line_number e -> tokenizes p ts -> (forall before, ts <> before ++ [lit "o"]) ->
  exists set, parse dbg (p ++ LF :: LF :: lit "usemtl m") = Ok set.
Proof. exact lines_viable_mode. Qed.
Print Assumptions C67_obj_lines.

(** The same about panics: all that is missing is a material (or an element) in
    front of the end of the object. *)
Theorem C67_obj_panic : forall dbg input, fits (input ++ LF :: lit "usemtl m") -> parse dbg input = Panic PanicIndex ->
  exists x rest tx ts done o, input = x ++ rest /\ tokenizes x tx /\ tokenizes rest ts /\ tokenizes input (tx ++ ts) /\ at_object_end ts /\
    reaches (tx ++ ts) done (Some o) ts /\ ~ drawable o /\
    exists set, parse dbg (x ++ LF :: lit "usemtl m") = Ok set.
Proof. exact panic_viable_mode. Qed.
Print Assumptions C67_obj_panic.

(** And about the overflows of debug builds: the text in front of the first one
    is fine. *)
Theorem C67_obj_overflow : forall input, fits (input ++ LF :: lit "usemtl m") -> parse true input = Panic PanicOverflow ->
  exists x rest tx ts done n ss, input = x ++ rest /\ tokenizes x tx /\ tokenizes rest ts /\ tokenizes input (tx ++ ts) /\
    reaches (tx ++ ts) done (Some (n, ss)) ts /\ overflows (counts_in done []) (counts_in done ss) ts /\
    exists set, parse true (x ++ LF :: lit "usemtl m") = Ok set.
Proof. exact overflow_viable. Qed.
Print Assumptions C67_obj_overflow.

(** In an MTL text, what is in front of the error parses as it is. *)
Theorem C67_mtl : forall input e, MtlModel.parse input = Err e ->
  exists x y z tx ty tz, input = x ++ y ++ z /\
    tokenizes x tx /\ tokenizes y ty /\ tokenizes z tz /\ tokenizes input (tx ++ ty ++ tz) /\
    MtlSpec.fails_at tx (ty ++ tz) (err_kind e, err_message e) tz /\
    line_after x <= err_line_number e <= line_after x + 1 /\
    exists set, MtlModel.parse x = Ok set.
Proof. exact MtlViable.error_viable. Qed.
Print Assumptions C67_mtl.

Theorem C67_mtl_lines : forall p z e, MtlModel.parse (p ++ LF :: z) = Err e -> line_after p + 1 < err_line_number e ->
  exists set, MtlModel.parse (p ++ [LF]) = Ok set.
Proof. exact MtlViable.lines_viable. Qed.
Print Assumptions C67_mtl_lines.

Example C67_example :
  let p := text "v 0 0 0|p 1|o b" in let z := text "v 1 0 0|v 1 x 0|v 2 2 2|" in
  parse true (p ++ LF :: z) = Err (mkParseError 5 ExpectedFloat (msg_float (lit "x"))) /\
  line_after p = 3 /\ fits (p ++ LF :: z ++ LF :: lit "usemtl m") /\
  tokenizes p [lit "v"; lit "0"; lit "0"; lit "0"; nl; lit "p"; lit "1"; nl; lit "o"; lit "b"] /\
  (exists set, parse true (p ++ LF :: LF :: lit "usemtl m") = Ok set) /\
  parse false (p ++ LF :: text "v 1 0 0|") = Panic PanicIndex.
Proof.
  cbv zeta. split; [vm_compute; reflexivity|]. split; [reflexivity|]. split; [vm_compute; discriminate|].
  split; [apply tokenizes_iff; vm_compute; reflexivity|]. split; [eexists|]; vm_compute; reflexivity.
Qed.

Example C67_overflow_example :
  let x := text "v 0 0 0|v 1 1 1|l 1 2|" in let rest := text "p 1 -9223372036854775807|p 1|l 1 -9223372036854775808|" in
  parse true (x ++ rest) = Panic PanicOverflow /\ fits ((x ++ rest) ++ LF :: lit "usemtl m") /\
  exists set, parse true (x ++ LF :: lit "usemtl m") = Ok set.
Proof. cbv zeta. split; [vm_compute; reflexivity|]. split; [vm_compute; discriminate|]. eexists. vm_compute. reflexivity. Qed.

Example C67_mtl_example :
  let p := text "newmtl a|Kd 1 1 1" in
  MtlModel.parse (p ++ LF :: text "Ns 1|Ks 1 1|newmtl b|") = Err (mkParseError 5 MtlTypes.ExpectedFloat (MtlSpec.msg_float nl)) /\
  line_after p = 2 /\ exists set, MtlModel.parse (p ++ [LF]) = Ok set.
Proof. cbv zeta. split; [vm_compute; reflexivity|]. split; [reflexivity|]. eexists. vm_compute. reflexivity. Qed.
