(** What the parsers give, said completely: C78. *)
From Verif Require Import ObjModel ObjErrorSpec ObjView CompleteSpec LexerProofs ObjTop ExampleText CompleteProofs.
From Verif Require MtlTypes MtlModel.
Local Open Scope list_scope.

(** The outcome of [obj::parse] is the one that [obj_gives] names, whether it is a
    result, an error or a panic. *)
Theorem C78_obj : forall dbg input r, fits input -> parse dbg input = r <-> obj_gives dbg input r.
Proof. exact obj_gives_iff. Qed.
Print Assumptions C78_obj.

Theorem C78_mtl : forall input r, MtlModel.parse input = r <-> mtl_gives input r.
Proof. exact mtl_gives_iff. Qed.
Print Assumptions C78_mtl.

(** There is exactly one outcome for every text. *)
Theorem C78_obj_one : forall dbg input, fits input -> exists! r, obj_gives dbg input r.
Proof.
  intros dbg input Hf. exists (parse dbg input). split; [now apply C78_obj|]. intros r H. now apply C78_obj in H.
Qed.
Print Assumptions C78_obj_one.

Theorem C78_mtl_one : forall input, exists! r, mtl_gives input r.
Proof. intros input. exists (MtlModel.parse input). split; [now apply C78_mtl|]. intros r H. now apply C78_mtl in H. Qed.
Print Assumptions C78_mtl_one.

(** Any other program of which this can be said is the same function: a program
    that differs from the parser for a single text violates it. *)
Theorem C78_obj_only : forall p : bool -> bytes -> outcome (parse_error error_kind) object_set,
  (forall dbg input, fits input -> obj_gives dbg input (p dbg input)) ->
  forall dbg input, fits input -> p dbg input = parse dbg input.
Proof. intros p H dbg input Hf. symmetry. apply C78_obj; auto. Qed.
Print Assumptions C78_obj_only.

Theorem C78_mtl_only : forall p : bytes -> outcome (parse_error MtlTypes.error_kind) MtlTypes.material_set,
  (forall input, mtl_gives input (p input)) -> forall input, p input = MtlModel.parse input.
Proof. intros p H input. symmetry. apply C78_mtl; auto. Qed.
Print Assumptions C78_mtl_only.

(** Texts for every kind of outcome. *)
Example C78_ok : exists set, obj_gives true (text "v 0 0 0|p 1|") (Ok set) /\ length (objects set) = 1.
Proof. eexists. split; [apply C78_obj; [vm_compute; discriminate|vm_compute; reflexivity]|reflexivity]. Qed.

Example C78_err : obj_gives true (text "v 0 0 0|p 1|v 0 x|") (Err (mkParseError 3 ExpectedFloat (msg_float (lit "x")))).
Proof. apply C78_obj; [vm_compute; discriminate|vm_compute; reflexivity]. Qed.

Example C78_index : obj_gives false (text "v 0 0 0|") (Panic PanicIndex).
Proof. apply C78_obj; [vm_compute; discriminate|vm_compute; reflexivity]. Qed.

Example C78_overflow : obj_gives true (text "v 0 0 0|p -9223372036854775808|") (Panic PanicOverflow) /\
  exists e, obj_gives false (text "v 0 0 0|p -9223372036854775808|") (Err e).
Proof.
  split; [apply C78_obj; [vm_compute; discriminate|vm_compute; reflexivity]|].
  eexists. apply C78_obj; [vm_compute; discriminate|vm_compute; reflexivity].
Qed.

Example C78_mtl_example : exists set e,
  mtl_gives (text "newmtl a|Kd 1 0 0|") (Ok set) /\ mtl_gives (text "newmtl a|Kd 1 0|") (Err e) /\ err_line_number e = 3.
Proof.
  eexists _, _. split; [apply C78_mtl; vm_compute; reflexivity|]. split; [apply C78_mtl; vm_compute; reflexivity|reflexivity].
Qed.
