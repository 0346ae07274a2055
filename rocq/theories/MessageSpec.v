(** What the errors of [obj::parse] say about the text.  Independent of the model. *)
From Verif Require Export ObjErrorSpec.
Local Open Scope list_scope.

(** The failing statement has been read up to its token [t], the last one of
    [read], or not at all, and then [t] is its first token. *)
Definition quoted (read rest : list bytes) (t : bytes) : Prop :=
  (exists a, read = a ++ [t]) \/ (read = [] /\ exists b, rest = t :: b).

(** [p] is [t] or one of the parts between its slashes. *)
Definition piece_of (p t : bytes) : Prop := p = t \/ exists ps, parts_of t ps /\ In p ps.

(** [explains read rest c]: what the error [c] says is so.  [read] are the tokens
    of the failing statement that have been read, [rest] is what follows them. *)
Inductive explains (read rest : list bytes) : complaint -> Prop :=
| says_end : rest = [] -> explains read rest (EndOfFile, msg_end)
| says_tag t : quoted read rest t -> t <> nl -> explains read rest (ExpectedTagStatement, msg_tag nl t)
| says_float t : quoted read rest t -> RustStd.parse_f64 t = None -> explains read rest (ExpectedFloat, msg_float t)
| says_integer t p : quoted read rest t -> piece_of p t -> RustStd.parse_isize p = None ->
    explains read rest (ExpectedInteger, msg_integer p)
| says_reference t : quoted read rest t -> (forall r, ~ ref_token t r) ->
    explains read rest (ExpectedVTNIndex, msg_vtn t)
| says_range t p z lo hi : quoted read rest t -> piece_of p t -> RustStd.parse_isize p = Some z ->
    ~ (Z.of_nat lo < z <= Z.of_nat hi)%Z ->
    explains read rest (VTNIndexOutOfRange, msg_range lo hi (shown_index hi z))
| says_few : (exists ts, read = lit "f" :: ts) ->
    explains read rest (EveryFaceElementMustHaveAtLeastThreeVertices, msg_few)
| says_line_form : (exists ts, read = lit "l" :: ts) ->
    explains read rest (EveryVTNIndexMustHaveTheSameFormForAGivenElement, msg_line_form)
| says_face_form : (exists ts, read = lit "f" :: ts) ->
    explains read rest (EveryVTNIndexMustHaveTheSameFormForAGivenElement, msg_face_form)
| says_unknown t : quoted read rest t -> ~ In t (nl :: lit "o" :: keywords) ->
    explains read rest (InvalidObjectStatement, msg_statement t)
| says_smoothing t : quoted read rest t -> t <> lit "off" -> RustStd.parse_usize t = None ->
    explains read rest (SmoothingGroupNameMustBeOffOrInteger, msg_smoothing t)
| says_no_smoothing : read = [lit "s"] -> rest = [] ->
    explains read rest (SmoothingGroupDeclarationHasNoName, msg_no_smoothing)
| says_no_material : read = [lit "usemtl"] -> rest = [] ->
    explains read rest (MaterialStatementHasNoName, msg_no_material).
