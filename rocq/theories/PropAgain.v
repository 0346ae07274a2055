(** C62: asking a parser again. *)
From Verif Require Import ObjModel AgainSpec ObjErrorSpec ObjTop Again ExampleText.
From Verif Require MtlModel MtlSpec MtlAgain.
Local Open Scope list_scope.

(** * C62 *)

(** The results of several calls are those of parsing what the calls before left
    over, as a text of its own; only the line numbers go on. *)
Theorem C62_obj : forall dbg input rs q, fits input ->
  calls (parse_objset dbg (fuel_for input)) (parser_new input) rs q -> reports (parse dbg) fails_file [] input rs.
Proof. exact obj_reports. Qed.
Print Assumptions C62_obj.

(** A statement that is not one stays where it is: all further calls complain
    about it again, unless it is [mtllib], which may begin a text. *)
Theorem C62_obj_stuck : forall dbg input rs e p, fits input ->
  calls (parse_objset dbg (fuel_for input)) (parser_new input) (rs ++ [Err e]) p ->
  err_kind e = InvalidObjectStatement -> err_message e <> msg_statement (lit "mtllib") ->
  forall n, exists q, calls (parse_objset dbg (fuel_for input)) p (repeat (Err e) n) q.
Proof. exact obj_stuck. Qed.
Print Assumptions C62_obj_stuck.

Theorem C62_mtl : forall input rs q,
  calls (MtlModel.parse_mtlset (MtlModel.fuel_for input)) (parser_new input) rs q ->
  reports MtlModel.parse MtlSpec.fails_file [] input rs.
Proof. exact MtlAgain.mtl_reports. Qed.
Print Assumptions C62_mtl.

(** Outside of a material only [newmtl] is expected. *)
Theorem C62_mtl_stuck : forall input rs e p,
  calls (MtlModel.parse_mtlset (MtlModel.fuel_for input)) (parser_new input) (rs ++ [Err e]) p ->
  err_kind e = MtlTypes.ErrorParsingMaterial \/ err_kind e = MtlTypes.ExpectedEndOfInput ->
  exists t, (err_message e = MtlSpec.msg_material t \/ err_message e = MtlSpec.msg_not_end t) /\
    forall n, exists q, calls (MtlModel.parse_mtlset (MtlModel.fuel_for input)) p
      (repeat (Err (mkParseError (err_line_number e) MtlTypes.ExpectedEndOfInput (MtlSpec.msg_not_end t))) n) q.
Proof. exact MtlAgain.mtl_stuck. Qed.
Print Assumptions C62_mtl_stuck.

(** For the examples. *)
Fixpoint run_calls {S E A} (call : S -> outcome E A * S) (n : nat) (p : S) : list (outcome E A) * S :=
  match n with
  | O => ([], p)
  | S n' => let (r, p') := call p in let (rs, q) := run_calls call n' p' in (r :: rs, q)
  end.

Lemma calls_run : forall S E A (call : S -> outcome E A * S) n p rs, fst (run_calls call n p) = rs ->
  Forall (fun r => match r with Ok _ | Err _ => True | _ => False end) rs -> exists q, calls call p rs q.
Proof.
  intros S E A call n. induction n as [|n IH]; intros p rs H HF; cbn [run_calls] in H.
  - subst. exists p. constructor.
  - destruct (call p) as [r p'] eqn:C. specialize (IH p'). destruct (run_calls call n p') as [rs' q'] eqn:R.
    cbn [fst] in *. subst rs. inversion HF; subst. destruct (IH rs' eq_refl) as [q K]; auto.
    exists q. destruct r; try contradiction; [eapply calls_ok|eapply calls_err]; eauto.
Qed.

(** Five calls: two errors, the rest of the text, and nothing twice.  The point
    is the vertex of line 4, the first one after the second error. *)
Definition again_text : bytes :=
  text "v 1 2 x|v 1 2 3|p 2|v 4 5 6|p 1|".

Example C62_obj_example : exists e1 e2 set,
  (exists q, calls (parse_objset true (fuel_for again_text)) (parser_new again_text)
    [Err e1; Err e2; Ok set; Ok (mkObjectSet [] []); Ok (mkObjectSet [] [])] q) /\
  (err_line_number e1, err_kind e1) = (1, ExpectedFloat) /\ (err_line_number e2, err_kind e2) = (3, VTNIndexOutOfRange) /\
  map (fun o => (length (vertex_set o), element_set o)) (objects set) = [(1, [Point (V 0)])].
Proof.
  eexists _, _, _. split; [apply (calls_run _ _ _ _ 5); [vm_compute; reflexivity|repeat constructor]|repeat split].
Qed.

Example C62_obj_stuck_example : exists e1 e2,
  let input := text "v 1 2 x|vp 1|" in
  (exists q, calls (parse_objset false (fuel_for input)) (parser_new input) ([Err e1] ++ [Err e2]) q) /\
  err_kind e2 = InvalidObjectStatement /\ err_line_number e2 = 2 /\ err_message e2 = msg_statement (lit "vp").
Proof.
  eexists _, _. split; [apply (calls_run _ _ _ _ 2); [vm_compute; reflexivity|repeat constructor]|repeat split].
Qed.

(** [mtllib] in the middle of a text: the second call takes it. *)
Example C62_obj_mtllib : exists e set,
  let input := text "v 1 2 3|mtllib a|" in
  (exists q, calls (parse_objset false (fuel_for input)) (parser_new input) [Err e; Ok set] q) /\
  err_kind e = InvalidObjectStatement /\ set = mkObjectSet [lit "a"] [].
Proof.
  eexists _, _. split; [apply (calls_run _ _ _ _ 2); [vm_compute; reflexivity|repeat constructor]|repeat split].
Qed.

Example C62_mtl_example : exists e1 set,
  let input := text "newmtl a|illum 9|newmtl b|d 1|" in
  (exists q, calls (MtlModel.parse_mtlset (MtlModel.fuel_for input)) (parser_new input) [Err e1; Ok set] q) /\
  (err_line_number e1, err_kind e1) = (2, MtlTypes.UnknownIlluminationModel) /\
  map MtlTypes.name (MtlTypes.materials set) = [lit "b"].
Proof.
  eexists _, _. split; [apply (calls_run _ _ _ _ 2); [vm_compute; reflexivity|repeat constructor]|repeat split].
Qed.

Example C62_mtl_stuck_example : exists e1 e2,
  let input := text "newmtl a|illum 9|d 1|newmtl b|" in
  (exists q, calls (MtlModel.parse_mtlset (MtlModel.fuel_for input)) (parser_new input) ([Err e1] ++ [Err e2]) q) /\
  err_kind e2 = MtlTypes.ExpectedEndOfInput /\ err_line_number e2 = 3.
Proof.
  eexists _, _. split; [apply (calls_run _ _ _ _ 2); [vm_compute; reflexivity|repeat constructor]|repeat split].
Qed.
