(** C65: every line starts a statement; C66: texts that are cut off; C27: line
    ends of two bytes.

    PlaceSpec.v says what a line is, and which lines have a statement that ends
    by itself; MtlLineSpec.v is about MTL texts. *)
From Verif Require Import ObjModel ObjErrorSpec ObjView ObjTop PlaceSpec Lines ObjCut CutDebug Demo ExampleText LexerProofs.
From Verif Require MtlModel MtlSpec MtlLineSpec MtlLines MtlDemo.
Local Open Scope list_scope.

(** * C65 *)

(** No statement goes on over the end of a line: behind every newline token there
    starts a statement (or nothing follows).  The only exception is an object
    whose name is the newline. *)
Theorem C65_lines : forall dbg input set before rest, fits input -> parse dbg input = Ok set ->
  tokenizes input (before ++ nl :: rest) -> line_starts (before ++ nl :: rest) before rest.
Proof. exact parsed_lines. Qed.
Print Assumptions C65_lines.

(** The first word of every line is one of eleven. *)
Theorem C65_first_word : forall dbg input set line rest t ts, fits input -> parse dbg input = Ok set ->
  at_line input line rest -> starts_with line_end rest -> tokenizes line (t :: ts) ->
  In t [lit "o"; lit "mtllib"; lit "g"; lit "s"; lit "usemtl"; lit "v"; lit "vt"; lit "vn"; lit "p"; lit "l"; lit "f"].
Proof. exact first_word_list. Qed.
Print Assumptions C65_first_word.

Theorem C65_mtl_first_word : forall input set line rest t ts, MtlModel.parse input = Ok set ->
  at_line input line rest -> starts_with line_end rest -> tokenizes line (t :: ts) -> MtlSpec.keyword t \/ t = lit "newmtl".
Proof. exact MtlLines.parsed_first_word. Qed.
Print Assumptions C65_mtl_first_word.

Example C65_example :
  let input := text "mtllib a|v 0 0 0|v 1 0 0 # comment|v 0 1 0 usemtl b|f 1 2 3|" in
  (exists set, parse true input = Ok set) /\ fits input /\
  at_line input (lit "v 0 1 0 usemtl b") (text "|f 1 2 3|") /\
  tokenizes (lit "v 0 1 0 usemtl b") [lit "v"; lit "0"; lit "1"; lit "0"; lit "usemtl"; lit "b"] /\
  tokenizes input ([lit "mtllib"; lit "a"; nl; lit "v"; lit "0"; lit "0"; lit "0"] ++
    nl :: [lit "v"; lit "1"; lit "0"; lit "0"; nl; lit "v"; lit "0"; lit "1"; lit "0"; lit "usemtl"; lit "b"; nl; lit "f"; lit "1"; lit "2"; lit "3"; nl]) /\
  parse false (text "v 0 0 0|v 1 0 |0|p 1|") = Err (mkParseError 3 ExpectedFloat (msg_float nl)).
Proof.
  cbv zeta. split; [eexists; vm_compute; reflexivity|]. split; [vm_compute; discriminate|]. split; [|split; [|split]].
  - split.
    + repeat (constructor; [intros [C|C]; discriminate C|]). constructor.
    + right. exists (text "mtllib a|v 0 0 0|v 1 0 0 # comment"). reflexivity.
  - apply tokenizes_iff. vm_compute. reflexivity.
  - apply tokenizes_iff. vm_compute. reflexivity.
  - vm_compute. reflexivity.
Qed.

(** * C66 *)

(** An OBJ text that parses, cut off behind a line end, never gives an error: it
    parses too, or runs into the panic for an object that has nothing to draw
    (C03).  What it returns are the first objects; the last one may be
    incomplete. *)
Theorem C66_obj : forall dbg a b set ts, fits (a ++ LF :: b) -> parse dbg (a ++ LF :: b) = Ok set ->
  tokenizes a ts -> (forall before, ts <> before ++ [lit "o"]) ->
  parse dbg (a ++ [LF]) = Panic PanicIndex \/ exists set', parse dbg (a ++ [LF]) = Ok set' /\ front_set set set'.
Proof. exact cut_result_mode. Qed.
Print Assumptions C66_obj.

(** The same about what the texts say, for release builds. *)
Theorem C66_obj_says : forall a b f ts, says (a ++ LF :: b) f -> Forall drawable (file_objects f) -> fits (a ++ LF :: b) ->
  tokenizes a ts -> (forall before, ts <> before ++ [lit "o"]) ->
  exists f', cut_file f f' /\ says (a ++ [LF]) f' /\
    ((Forall drawable (file_objects f') /\ parse false (a ++ [LF]) = Ok (file_means f')) \/
     (~ Forall drawable (file_objects f') /\ parse false (a ++ [LF]) = Panic PanicIndex)).
Proof. exact cut_text. Qed.
Print Assumptions C66_obj_says.

(** MTL texts always parse when they are cut off there. *)
Theorem C66_mtl : forall a b set, MtlModel.parse (a ++ LF :: b) = Ok set -> exists set', MtlModel.parse (a ++ [LF]) = Ok set' /\
  (MtlTypes.materials set' = [] \/ exists before m m' after,
     MtlTypes.materials set = before ++ m :: after /\ MtlTypes.materials set' = before ++ [m'] /\ MtlTypes.name m' = MtlTypes.name m).
Proof. exact MtlLines.cut_parses. Qed.
Print Assumptions C66_mtl.

Theorem C66_mtl_says : forall a b f, MtlSpec.text_says (a ++ LF :: b) f ->
  exists f', MtlLineSpec.cut_file f f' /\ MtlSpec.text_says (a ++ [LF]) f' /\ MtlModel.parse (a ++ [LF]) = Ok (MtlSpec.file_means f').
Proof. exact MtlLines.cut_says. Qed.
Print Assumptions C66_mtl_says.

Example C66_example :
  let a := text "v 0 0 0|p 1|o b|v 1 0 0|v 2 0 0|l 2 3" in let b := text "p 3|o c|v 1 1 1|p 4|" in
  (exists set, parse true (a ++ LF :: b) = Ok set /\ map name (objects set) = [[]; lit "b"; lit "c"]) /\
  fits (a ++ LF :: b) /\
  (exists set', parse false (a ++ [LF]) = Ok set' /\ map element_set (objects set') = [[Point (V 0)]; [Line (V 0) (V 1)]]) /\
  parse false (text "v 0 0 0|p 1|o b|v 1 0 0|") = Panic PanicIndex /\
  (exists e, parse false (lit "v 0 0 0" ++ LF :: lit "p 1" ++ LF :: lit "o" ++ [LF]) = Err e) /\
  (exists set, parse false (text "v 0 0 0|p 1|o||usemtl x|") = Ok set).
Proof.
  cbv zeta. split; [eexists; split; vm_compute; reflexivity|]. split; [vm_compute; discriminate|].
  split; [eexists; split; vm_compute; reflexivity|]. split; [vm_compute; reflexivity|]. split; eexists; vm_compute; reflexivity.
Qed.

Example C66_mtl_example : let a := text "newmtl a|Kd 1 1 1|newmtl b|Ns 10" in let b := text "Ks 1 1 1|newmtl c|" in
  (exists set, MtlModel.parse (a ++ LF :: b) = Ok set /\ map MtlTypes.name (MtlTypes.materials set) = [lit "a"; lit "b"; lit "c"]) /\
  (exists set, MtlModel.parse (a ++ [LF]) = Ok set /\ map MtlTypes.name (MtlTypes.materials set) = [lit "a"; lit "b"]).
Proof. split; eexists; split; vm_compute; reflexivity. Qed.

(** * C27 *)

(** No text is accepted in which an empty line, a coordinate, [s], [usemtl] or
    [o] statement ends with a carriage return. *)
Theorem C27_line : forall dbg input set line rest ts, fits input -> at_line input line (CR :: rest) ->
  tokenizes line ts -> simple_line ts -> parse dbg input <> Ok set.
Proof. exact carriage_return_line. Qed.
Print Assumptions C27_line.

(** So no text with such a line survives the other convention. *)
Theorem C27_crlf : forall dbg x set line rest ts, fits (crlf x) -> at_line x line (LF :: rest) ->
  tokenizes line ts -> simple_line ts -> parse dbg (crlf x) <> Ok set.
Proof. exact crlf_line. Qed.
Print Assumptions C27_crlf.

(** In an MTL text, a carriage return in place of any line end is an error on its
    line, unless the line end was a name. *)
Theorem C27_mtl : forall a b rest f ts, MtlSpec.text_says (a ++ LF :: b) f -> ~ In nl (MtlLineSpec.file_names f) -> tokenizes a ts ->
  (In (lit "newmtl") ts ->
     MtlModel.parse (a ++ CR :: rest) = Err (mkParseError (line_after a) MtlTypes.ErrorParsingMaterial (MtlSpec.msg_material [CR]))) /\
  (~ In (lit "newmtl") ts ->
     MtlModel.parse (a ++ CR :: rest) = Err (mkParseError (line_after a) MtlTypes.ExpectedEndOfInput (MtlSpec.msg_not_end [CR]))).
Proof. exact MtlLines.carriage_return. Qed.
Print Assumptions C27_mtl.

Theorem C27_mtl_crlf : forall a b f ts, MtlSpec.text_says (a ++ LF :: b) f -> ~ In nl (MtlLineSpec.file_names f) -> ~ In LF a ->
  tokenizes a ts ->
  MtlModel.parse (crlf (a ++ LF :: b)) =
    Err (match ts with
         | [] => mkParseError 1 MtlTypes.ExpectedEndOfInput (MtlSpec.msg_not_end [CR])
         | _ => mkParseError 1 MtlTypes.ErrorParsingMaterial (MtlSpec.msg_material [CR])
         end).
Proof. exact MtlLines.crlf_fails. Qed.
Print Assumptions C27_mtl_crlf.

Example C27_lines_example :
  let input := text "v 0 0 0|v 1 0 0" ++ CR :: text "|l 1 2|" in
  at_line input (lit "v 1 0 0") (CR :: text "|l 1 2|") /\ simple_line [lit "v"; lit "1"; lit "0"; lit "0"] /\
  tokenizes (lit "v 1 0 0") [lit "v"; lit "1"; lit "0"; lit "0"] /\ fits input /\
  parse true input = Err (mkParseError 2 InvalidObjectStatement (msg_statement [CR])).
Proof.
  cbv zeta. split; [|split; [|split; [|split]]].
  - split.
    + repeat (constructor; [intros [C|C]; discriminate C|]). constructor.
    + right. exists (text "v 0 0 0"). reflexivity.
  - apply (simple_v [lit "1"; lit "0"; lit "0"]); [|repeat constructor].
    repeat (constructor; [eexists; vm_compute; reflexivity|]). constructor.
  - apply tokenizes_iff. vm_compute. reflexivity.
  - vm_compute. discriminate.
  - vm_compute. reflexivity.
Qed.

Example C27_mtl_example :
  let a := lit "newmtl a" in let b := text "Kd 1 1 1|" in
  let f := [(lit "a", [MtlSpec.SetColor MtlSpec.Kd (MtlDemo.col "1" "1" "1")])] in
  MtlSpec.text_says (a ++ LF :: b) f /\ ~ In nl (MtlLineSpec.file_names f) /\ ~ In LF a /\ tokenizes a [lit "newmtl"; lit "a"] /\
  MtlModel.parse (crlf (a ++ LF :: b)) = Err (mkParseError 1 MtlTypes.ErrorParsingMaterial (MtlSpec.msg_material [CR])) /\
  MtlModel.parse (crlf (text "|newmtl a|")) = Err (mkParseError 1 MtlTypes.ExpectedEndOfInput (MtlSpec.msg_not_end [CR])).
Proof.
  cbv zeta. split; [|split; [|split; [|split; [|split]]]].
  - unfold MtlDemo.col. MtlDemo.mtl_says.
  - cbn. intros [C|[]]. discriminate C.
  - cbn. intros C. repeat (destruct C as [C|C]; [discriminate C|]). exact C.
  - apply tokenizes_iff. vm_compute. reflexivity.
  - vm_compute. reflexivity.
  - vm_compute. reflexivity.
Qed.
