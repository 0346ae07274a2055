(** C48 (errors depend on the lines before them only) and C49 (putting files
    together). *)
From Verif Require Import ObjModel MtlModel TokenSpec Locality Merge ObjTop ObjImageSpec ObjMerge ExampleText.
Local Open Scope list_scope.

(** * C48 *)

(** If the text goes wrong before or on the last line of [p], it goes wrong in
    the same way whatever follows that line. *)
Theorem C48_obj : forall dbg p z z' e,
  ObjModel.parse dbg (p ++ LF :: z) = Err e -> err_line_number e <= line_after p ->
  ObjModel.parse dbg (p ++ LF :: z') = Err e.
Proof. exact obj_error_local. Qed.
Print Assumptions C48_obj.

Theorem C48_mtl : forall p z z' e,
  MtlModel.parse (p ++ LF :: z) = Err e -> err_line_number e <= line_after p ->
  MtlModel.parse (p ++ LF :: z') = Err e.
Proof. exact mtl_error_local. Qed.
Print Assumptions C48_mtl.

Definition error_line {K A} (r : outcome (parse_error K) A) : nat := match r with Err e => err_line_number e | _ => 0 end.

Example C48_obj_example :
  let p := text "v 1 2 3|v 1 x 3" in
  let r := ObjModel.parse true (p ++ LF :: text "p 1|") in
  error_line r = 2 /\ line_after p = 2 /\ ObjModel.parse true (p ++ LF :: text "what") = r.
Proof. repeat split; vm_compute; reflexivity. Qed.

(** The bound is sharp: an error reported for the next line depends on it. *)
Example C48_obj_later :
  let p := text "v 1 2 3|p 1" in
  error_line (ObjModel.parse true (p ++ LF :: text "x")) = 3 /\ line_after p = 2 /\
  error_line (ObjModel.parse true (p ++ LF :: text "y")) = 3 /\
  ObjModel.parse true (p ++ LF :: text "x") <> ObjModel.parse true (p ++ LF :: text "y").
Proof. repeat split; vm_compute; reflexivity || discriminate. Qed.

Example C48_mtl_example :
  let p := text "newmtl a|Kd 1 0 0|illum 7" in
  let r := MtlModel.parse (p ++ LF :: text "Ns 2") in
  error_line r = 3 /\ line_after p = 3 /\ MtlModel.parse (p ++ LF :: text "newmtl") = r.
Proof. repeat split; vm_compute; reflexivity. Qed.

(** * C49 *)

(** The materials of two files on top of each other. *)
Theorem C49_mtl : forall a b A B, MtlModel.parse a = Ok A -> MtlModel.parse b = Ok B ->
  MtlModel.parse (a ++ LF :: b) = Ok (mkMaterialSet (materials A ++ materials B)).
Proof. exact concat_materials. Qed.
Print Assumptions C49_mtl.

Definition material_names (r : outcome (parse_error MtlTypes.error_kind) material_set) : list bytes :=
  match r with Ok s => map MtlTypes.name (materials s) | _ => [] end.

Example C49_mtl_example :
  let a := text "newmtl a|Kd 1 0 0|" in
  let b := text "|# second|newmtl b newmtl a|d 0.5" in
  material_names (MtlModel.parse a) = [lit "a"] /\ material_names (MtlModel.parse b) = [lit "b"; lit "a"] /\
  material_names (MtlModel.parse (a ++ LF :: b)) = [lit "a"; lit "b"; lit "a"].
Proof. repeat split; vm_compute; reflexivity. Qed.

(** Object sets cannot be put together by putting their texts on top of each
    other: indices count from the top of the file. *)
Theorem C49_obj_texts_refuted : exists a b A B, ObjModel.parse false a = Ok A /\ ObjModel.parse false b = Ok B /\
  Forall (fun ob => ObjTypes.name ob <> []) (objects B) /\
  exists e, ObjModel.parse false (a ++ LF :: b) = Err e.
Proof. exact texts_do_not_merge. Qed.
Print Assumptions C49_obj_texts_refuted.

(** But any two sets that have been read can be put together, provided only the
    first object of all has no name; [write_set] gives a text for the result. *)
Theorem C49_obj : forall dbg dbg' dbg'' a b A B, fits a -> fits b ->
  ObjModel.parse dbg a = Ok A -> ObjModel.parse dbg' b = Ok B ->
  (objects A = [] \/ Forall (fun ob => ObjTypes.name ob <> []) (objects B)) -> fits (write_set (merge A B)) ->
  ObjModel.parse dbg'' (write_set (merge A B)) = Ok (merge A B).
Proof. exact merged_read. Qed.
Print Assumptions C49_obj.

Example C49_obj_example :
  let A := ObjMerge.get (ObjModel.parse true (text "mtllib x|v 1 2 3|v 2 2 2|l 1 2")) in
  let B := ObjMerge.get (ObjModel.parse true (text "o b|v 4 5 6|usemtl m|p 1")) in
  length (objects A) = 1 /\ map ObjTypes.name (objects B) = [lit "b"] /\
  write_set (merge A B) = text "mtllib x|v 1 2 3 1|v 2 2 2 1|g default|s 0|l 1 2|o b|v 4 5 6 1|usemtl m|g default|s 0|p 3|" /\
  ObjModel.parse true (write_set (merge A B)) = Ok (merge A B).
Proof. repeat split; vm_compute; reflexivity. Qed.
