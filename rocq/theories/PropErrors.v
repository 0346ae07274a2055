(** C60: what errors say about the text. *)
From Verif Require Import ObjModel MessageSpec ObjTop ObjMessages ExampleText.
From Verif Require MtlModel MtlMessageSpec MtlMessages.
Local Open Scope list_scope.

(** * C60 *)

(** The text is read up to some token of the statement that fails; the line number
    is the line reached there, and the message is right about that token. *)
Theorem C60_obj_explained : forall dbg input e, fits input -> parse dbg input = Err e ->
  exists x y z tx read rest, input = x ++ y ++ z /\
    tokenizes x tx /\ tokenizes y read /\ tokenizes z rest /\ tokenizes input (tx ++ read ++ rest) /\
    err_line_number e = line_after (x ++ y) /\ explains read rest (err_kind e, err_message e).
Proof. exact error_explained. Qed.
Print Assumptions C60_obj_explained.

Theorem C60_mtl_explained : forall input e, MtlModel.parse input = Err e ->
  exists x y z tx read rest, input = x ++ y ++ z /\
    tokenizes x tx /\ tokenizes y read /\ tokenizes z rest /\ tokenizes input (tx ++ read ++ rest) /\
    err_line_number e = line_after (x ++ y) /\ MtlMessageSpec.explains read rest (err_kind e, err_message e).
Proof. exact MtlMessages.error_explained. Qed.
Print Assumptions C60_mtl_explained.

(** One kind of error of each module is never returned. *)
Theorem C60_obj_never : forall dbg input e, fits input -> parse dbg input = Err e ->
  err_kind e <> ElementMustBeAPointLineOrFace.
Proof. exact no_element_error. Qed.
Print Assumptions C60_obj_never.

Theorem C60_mtl_never : forall input e, MtlModel.parse input = Err e ->
  err_kind e <> MtlTypes.ExpectedTagStatement.
Proof. exact MtlMessages.no_tag_error. Qed.
Print Assumptions C60_mtl_never.

(** All the others are. *)
Theorem C60_obj_every_kind : forall k, k <> ElementMustBeAPointLineOrFace ->
  exists input, fits input /\ forall dbg, exists e, parse dbg input = Err e /\ err_kind e = k.
Proof. exact every_kind. Qed.
Print Assumptions C60_obj_every_kind.

Theorem C60_mtl_every_kind : forall k, k <> MtlTypes.ExpectedTagStatement ->
  exists input e, MtlModel.parse input = Err e /\ err_kind e = k.
Proof. exact MtlMessages.every_kind. Qed.
Print Assumptions C60_mtl_every_kind.

Example C60_obj_example :
  parse false (text "v 0 0 0|p 1|f 1 1/1 1/x|g a") =
    Err (mkParseError 3 EveryFaceElementMustHaveAtLeastThreeVertices msg_few) /\
  parse true (text "v 0 0 0|p 1|l 1 1/x|g a") = Err (mkParseError 3 ExpectedInteger (msg_integer (lit "x"))) /\
  parse true (text "v 0 0 0|v 0 0 0|p 3|") = Err (mkParseError 3 VTNIndexOutOfRange (lit "Expected index in range [0, 2), but got 2.")).
Proof. vm_compute. auto. Qed.

Example C60_mtl_example :
  MtlModel.parse (text "newmtl a|Kd 1 1 1 |illum 4") =
    Err (mkParseError 3 MtlTypes.UnknownIlluminationModel (lit "Unknown illumination model: 4.")).
Proof. reflexivity. Qed.
